{"id": "C01", "title": "Linearised stamps reproduce the equation at the linearisation point", "statement": "For a model segment built from any Lagrangian in which unknowns do not occur inside sin/cos, the coefficients the segment hands to the Y matrix and the value it hands to the J vector for one of its equations satisfy: (sum over unknowns of coefficient * value of the unknown) - J = value of the equation, at every operating point where the equation is defined.", "quantifier": "for all Lagrangians (sums, products, integer powers, sin/cos of constants), all choices of constants/unknowns, all operating points at which no inverted base is zero", "why_tests_cant": "A test evaluates a handful of polynomials at a handful of points; the claim is an identity over all expressions and all real operating points.", "anchors": ["src/logic/stamping/lagrangesegment.py:split_expr", "src/logic/stamping/lagrangesegment.py:linearize_expr", "src/logic/stamping/lagrangesegment.py:LagrangeSegment.get_derivatives"]}
{"id": "C02", "title": "Y-matrix coefficients are the exact partial derivatives", "statement": "Under the conditions of C01 the coefficient stamped for unknown x in an equation is the partial derivative of that equation with respect to x at the operating point (so a solver step is a Newton step).", "quantifier": "for all expressions, all unknowns, all operating points where the equation is defined", "why_tests_cant": "Derivatives are limits; a test can only compare a few symbolic forms or finite differences.", "anchors": ["src/logic/stamping/lagrangesegment.py:split_expr", "src/logic/stamping/lagrangesegment.py:linearize_expr"]}
{"id": "C03", "title": "Linearisation is wrong for an unknown inside a trigonometric function", "statement": "The identity of C01 does not extend to every Lagrangian sympy accepts: a term with exactly one unknown and no power, such as cos(x), is treated as linear, its constant part is dropped and the linearised equation does not reproduce the equation. The identity for all expressions is false.", "quantifier": "there exists a Lagrangian, an equation of it and an operating point", "why_tests_cant": "No shipped model has such a term, so the shipped tests can never hit it; whether the classification rule is sound for all inputs is a statement about all expressions.", "anchors": ["src/logic/stamping/lagrangesegment.py:is_linear", "src/logic/stamping/lagrangesegment.py:split_expr"]}
{"id": "C04", "title": "Entries stamped once as linear do not depend on the operating point", "statement": "Every stamp expression marked linear (stamped a single time before the iterations) has the same value at every vector of unknowns; only constants and the homotopy factor can change it.", "quantifier": "for all segments, all equations, all pairs of operating points that agree on the constants", "why_tests_cant": "Requires the value to be equal at every pair of real vectors.", "anchors": ["src/logic/stamping/lagrangesegment.py:DerivativeEntry", "src/logic/stamping/matrixstamper.py:MatrixStamper.stamp_linear"]}
{"id": "C05", "title": "Two-terminal models conserve current and recover their equations", "statement": "For a two-terminal model the equation in the row of the 'from' bus is the supplied KCL expression and the equation in the row of the 'to' bus is its negation when no separate 'to' expressions are supplied, so the contributions at both ends sum to zero at every operating point; each extra equality appears unchanged in its own row.", "quantifier": "for all KCL expressions, equalities, objective terms and operating points; without optimisation", "why_tests_cant": "Holds for arbitrary user supplied expressions and real operating points.", "anchors": ["src/logic/stamping/lagrangesegment.py:TwoTerminalModelDefinition"]}
{"id": "C06", "title": "Undeclared symbols are rejected, except in the imaginary 'from' KCL", "statement": "Constructing a two-terminal model fails if the objective, the real 'from' KCL, the effective 'to' KCLs or an equality contains a symbol that was not declared. This does not hold for the imaginary 'from' KCL when separate 'to' KCLs are supplied: such a model is accepted.", "quantifier": "for all two-terminal model definitions; plus an explicit accepted counterexample", "why_tests_cant": "The check runs over arbitrary expressions; the missing case is only reachable with an argument combination no shipped model uses.", "anchors": ["src/logic/stamping/lagrangesegment.py:TwoTerminalModelDefinition", "src/logic/stamping/lagrangesegment.py:check_missing_symbols"]}
{"id": "C07", "title": "Batched and deduplicated stamping equals stamping each element on its own", "statement": "The matrix and right hand side produced through shared argument tables (grouped by expression, instances deduplicated by their inputs) equal those obtained by evaluating every stamp of every element separately and adding them up; nothing is lost, duplicated or attributed to the wrong element.", "quantifier": "for all lists of stamp collections, all operating points and homotopy factors, for both linear and non-linear stamps", "why_tests_cant": "Element counts, sharing patterns and values are unbounded; tests fix a few networks.", "anchors": ["src/logic/stamping/matrixstamper.py:MatrixStamper", "src/logic/stamping/matrixstamper.py:InputBuilder", "src/logic/stamping/matrixstamper.py:StampSet.stamp"]}
{"id": "C08", "title": "Ground contributes no row, no column and zero voltage", "statement": "An element terminal connected to ground produces no equation row and no matrix column, and every expression sees voltage 0 at that terminal.", "quantifier": "for all segments, index maps and operating points", "why_tests_cant": "Quantifies over all element/terminal combinations and operating points.", "anchors": ["src/logic/stamping/matrixstamper.py:__build_stamps", "src/logic/stamping/matrixstamper.py:InputBuilder.freeze_inputs", "src/models/components/bus.py:GROUND"]}
{"id": "C09", "title": "Matrix builder: what is solved is exactly what was stamped, if enough was stamped", "statement": "After any sequence of stamp and clear operations the matrix handed to the linear solver is the sum of the entries currently in use (retained prefix plus entries stamped since the last clear) whenever at least as many entries are in use as at any earlier time; get_row/get_col/get_usage always report exactly the entries in use.", "quantifier": "for all sequences of stamp/clear operations with valid retain indices", "why_tests_cant": "The state depends on the whole operation history; tests cover one short history.", "anchors": ["src/logic/stamping/matrixbuilder.py:MatrixBuilder"]}
{"id": "C10", "title": "Stale matrix entries survive when an iteration stamps fewer non-zeros", "statement": "Outside debug mode the guarantee of C09 fails as soon as an iteration stamps fewer non-zero values than an earlier one (for instance because a value became exactly 0): entries of the earlier iteration stay in the matrix that is solved. It holds for a history if and only if the leftover entries cancel to zero at every position.", "quantifier": "there exists a history; and for all histories an exact description of the surplus", "why_tests_cant": "Needs a specific numerical coincidence in a specific iteration.", "anchors": ["src/logic/stamping/matrixbuilder.py:MatrixBuilder.stamp", "src/logic/stamping/matrixbuilder.py:MatrixBuilder.to_matrix"]}
{"id": "C11", "title": "Debug mode never solves with stale entries", "statement": "With debug enabled, to_matrix either raises or returns exactly the matrix of the entries in use.", "quantifier": "for all sequences of stamp/clear operations", "why_tests_cant": "History dependent for unbounded histories.", "anchors": ["src/logic/stamping/matrixbuilder.py:MatrixBuilder.to_matrix"]}
{"id": "C12", "title": "Reported maximum residual is the largest absolute row sum", "statement": "The residual vector is the per-row sum of the contributions, the reported maximum is attained, bounds every row in absolute value, and the reported index is the first row attaining it.", "quantifier": "for all lists of contributions and all vector lengths >= 1", "why_tests_cant": "Unbounded lists and real values.", "anchors": ["src/logic/residualdetails.py:ResidualDetails"]}
{"id": "C13", "title": "Residual vector and stamped system agree", "statement": "For the stamps of any list of elements, row r of (Y*v - J) assembled at operating point v equals row r of the residual vector evaluated at v.", "quantifier": "for all element lists, all rows and all operating points where the models are defined", "why_tests_cant": "Combines all segments, batching and index maps at all operating points.", "anchors": ["src/logic/stamping/matrixstamper.py:MatrixStamper", "src/logic/residualdetails.py:ResidualDetails"]}
{"id": "C14", "title": "Derivative cache is crash and race tolerant", "statement": "Whatever prefix of a cache file a crashed or concurrently writing process has left behind, get_derivatives returns the derivatives of the requested segment, provided different segments have different file names; afterwards the result is remembered and no longer depends on the file.", "quantifier": "for all segments, all cache directory contents consisting of complete or torn files written by this program, all call sequences", "why_tests_cant": "Crash points and interleavings cannot be enumerated by running the code.", "anchors": ["src/logic/stamping/lagrangepickler.py:LagrangePickler", "src/logic/stamping/lagrangesegment.py:LagrangeSegment.get_derivatives"]}
{"id": "C15", "title": "Truncated hash collisions silently return another model's derivatives", "statement": "If two different segments have the same first ten hex digits of SHA-1, asking for the derivatives of one after the other has been cached returns the derivatives of the other without an error. Correctness for all pairs of segments is therefore conditional on the absence of collisions.", "quantifier": "for every hash function for which two keys collide on the truncated digest", "why_tests_cant": "A 40 bit collision will not be met in a test run.", "anchors": ["src/logic/stamping/lagrangepickler.py:LagrangePickler._get_pickle_file", "src/logic/stamping/lagrangepickler.py:LagrangePickler.try_unpickle"]}
{"id": "C16", "title": "A successful solve does not certify the returned voltages", "statement": "run_powerflow can report success for a vector whose residual is above the tolerance: the residual that is compared with the tolerance is evaluated at the previous iterate, because the operating point is only refreshed once per iteration number. The claim 'success implies residual of the returned vector below tolerance' is false.", "quantifier": "there exists a network equation, an initial vector and an exact linear solver", "why_tests_cant": "Requires an iterate close to a singular Jacobian; the shipped cases converge quadratically and hide it.", "anchors": ["src/logic/nrsolver.py:NRSolver.run_powerflow", "src/logic/stamping/matrixstamper.py:InputBuilder.update_vprev", "src/logic/stamping/matrixstamper.py:MatrixStamper.calc_residuals"]}
{"id": "C17", "title": "What a successful solve does certify", "statement": "If the Newton solver reports success then the returned vector is the output of the linear solver on the matrix and right hand side assembled at some vector whose residual (largest absolute row) is below the tolerance.", "quantifier": "for all networks, initial vectors, settings, homotopy factors and linear solver behaviours, starting from fresh argument tables", "why_tests_cant": "Quantifies over all runs of the iteration.", "anchors": ["src/logic/nrsolver.py:NRSolver.run_powerflow"]}
{"id": "C18", "title": "The Newton solver is bounded by max_iters", "statement": "At most max_iters linear systems are solved, the reported iteration number is below max_iters, and with max_iters = 0 the run ends in an error instead of a result.", "quantifier": "for all networks, settings and linear solver behaviours", "why_tests_cant": "Universal over runs, including non-converging ones.", "anchors": ["src/logic/nrsolver.py:NRSolver.run_powerflow"]}
{"id": "C19", "title": "The divergence bail-out can discard a converged run", "statement": "The slope check made at every 50th iteration precedes the convergence test: a run whose residual in that iteration is below the tolerance is nevertheless reported as failed when the least squares slope of the residual history is positive.", "quantifier": "there exists a residual history of length 50 and a tolerance", "why_tests_cant": "Needs a particular 50 step residual history.", "anchors": ["src/logic/nrsolver.py:NRSolver.run_powerflow"]}
{"id": "C20", "title": "Linear networks are solved in at most two iterations", "statement": "If all stamps are linear and the linear solver returns exact solutions of a system with a unique solution, the solver reports success no later than in iteration number 1, with the exact solution of the network equations.", "quantifier": "for all networks with only linear stamps, all initial vectors, all tolerances > 0, max_iters >= 2", "why_tests_cant": "Quantifies over all linear networks and starting points.", "anchors": ["src/logic/nrsolver.py:NRSolver.run_powerflow"]}
{"id": "C21", "title": "Voltage limiting keeps bus voltages in [-2, 2] and leaves other unknowns alone", "statement": "After voltage limiting every bus voltage component lies in [-2, 2], it differs from the previous iterate by at most 1 if the previous iterate was inside the band, and every unknown that is not a bus voltage component is unchanged; a step that already satisfies both limits is unchanged.", "quantifier": "for all vectors and all sets of bus indices", "why_tests_cant": "All real vectors.", "anchors": ["src/logic/v_limiting.py:PositiveSeqVoltageLimiting.apply_limiting"]}
{"id": "C22", "title": "Outside the band, limiting can move a voltage by more than one unit", "statement": "The step bound of C21 needs its hypothesis: from a previous value outside [-2, 2] (for instance an un-normalised initial value) the limited value can be farther than 1 from the previous one, or be moved although the proposed step was 0.", "quantifier": "there exist vectors", "why_tests_cant": "Boundary interaction of two clips at unusual values.", "anchors": ["src/logic/v_limiting.py:PositiveSeqVoltageLimiting.apply_limiting"]}
{"id": "C23", "title": "Homotopy success means the last solve was of the original network", "statement": "If the homotopy controller reports success, the returned vector was produced by a successful Newton run at homotopy factor 0; with stepping the factors tried are 100, 99, ..., 0 hundredths in this order, each started from the previous result, stopping at the first failure; at most 102 Newton runs are made.", "quantifier": "for all Newton solver behaviours and initial vectors", "why_tests_cant": "All solver behaviours over up to 102 dependent runs.", "anchors": ["src/logic/homotopycontroller.py:HomotopyController.run_powerflow"]}
{"id": "C24", "title": "Homotopy reports a negative remaining factor and only the last iteration count", "statement": "After a fully successful stepping run the reported homotopy percentage is -0.01 rather than 0, and the reported iteration count is that of the last step only, not the total.", "quantifier": "for all runs in which the direct attempt fails and all steps succeed", "why_tests_cant": "The tests that use stepping only look at the success flag.", "anchors": ["src/logic/homotopycontroller.py:HomotopyController.run_powerflow"]}
{"id": "C25", "title": "A homotopy step can be linearised at a stale vector", "statement": "If a Newton run ends in iteration 0, the first iteration of the next run on the same stamper does not refresh the operating point: its non-linear stamps and residuals are evaluated at the start vector of the earlier run instead of at the vector passed in. Otherwise the first iteration is linearised at the vector passed in.", "quantifier": "for all stamper states, all vectors; with a concrete witness", "why_tests_cant": "Needs a homotopy step that converges in its first iteration.", "anchors": ["src/logic/stamping/matrixstamper.py:InputBuilder.update_vprev", "src/logic/homotopycontroller.py:HomotopyController.run_powerflow"]}
{"id": "C26", "title": "Device control: bounded and settled on success", "statement": "With device control the controller runs at most ten power flows; if it returns a successful result, no controllable device would change state at the returned vector; if all ten results require an adjustment it raises.", "quantifier": "for all device sets, initial states and solver behaviours", "why_tests_cant": "All device configurations and all solver outputs.", "anchors": ["src/logic/devicecontroller.py:DeviceController.run_powerflow", "src/models/components/fuse.py:Fuse.try_adjust_device", "src/models/components/capacitor.py:Capacitor.try_adjust_device"]}
{"id": "C27", "title": "Fuses blow exactly above their limit, never recover, and a blown fuse stops the solve", "statement": "A good fuse blows if and only if the magnitude of its current exceeds the limit; a blown fuse stays blown under every further sequence of adjustments; after any fuse has blown, building the system raises, so a run in which a fuse blows never returns a successful result.", "quantifier": "for all fuses, limits, voltage vectors and adjustment sequences", "why_tests_cant": "All sequences of solver results.", "anchors": ["src/models/components/fuse.py:Fuse", "src/logic/devicecontroller.py:DeviceController.run_powerflow"]}
{"id": "C28", "title": "Regulator taps stay in range and determine the ratio", "statement": "After construction and after any sequence of tap increments the tap position lies in [-lower_taps, raise_taps] and the transformer ratio is 1/(1+step*tap) for type A and 1-step*tap for type B; an increment reports a change exactly when the position changed, and positions strictly inside the range move by exactly the increment.", "quantifier": "for all tap limits with -lower <= raise, all initial positions, all increment sequences", "why_tests_cant": "All increment sequences and tap ranges.", "anchors": ["src/models/components/regulator.py:Regulator.try_increment_tap_position"]}
{"id": "C29", "title": "Voltage controlled capacitors switch in the direction that worsens the violation", "statement": "In VOLT mode a capacitor changes state only outside [low, high]; but it is switched in above the high limit and out below the low limit, i.e. the rule 'switched in when the voltage is below the low limit, out when above the high limit' is violated at every voltage outside the band. A new capacitor is switched in, and after any sequence of voltages it is out exactly when the last voltage outside the band was below it.", "quantifier": "for all limits low <= high, all voltages and both switch states", "why_tests_cant": "All voltages and limits.", "anchors": ["src/models/components/capacitor.py:Capacitor.try_adjust_device"]}
{"id": "C30", "title": "Constant power loads draw exactly P + jQ", "statement": "The current a constant power load contributes satisfies V * conj(I) = P + jQ for every non-zero terminal voltage difference V.", "quantifier": "for all P, Q and all non-zero complex voltages", "why_tests_cant": "All real operating points.", "anchors": ["src/models/components/load.py:lh_pq"]}
{"id": "C31", "title": "Impedance and current loads follow their definitions", "statement": "A constant impedance load with Z <> 0 draws V/Z for every voltage and hence the power |V|^2/conj(Z) with non-negative active power for a non-negative resistance; a constant current load contributes the given current at every voltage; loads of size zero contribute nothing.", "quantifier": "for all Z, IP, IQ and voltages", "why_tests_cant": "All real operating points.", "anchors": ["src/models/components/load.py:Load", "src/models/components/line.py:shunt_lh"]}
{"id": "C32", "title": "Line model is the pi-equivalent of r, x, b", "statement": "The series admittance times (r + jx) is 1, the currents at both ends are those of the pi circuit with b/2 at each end, and the active power absorbed by the line is G*|Vf-Vt|^2, hence non-negative for r >= 0.", "quantifier": "for all r, x, b with r^2+x^2 > 0 and all voltages", "why_tests_cant": "All real parameters and voltages.", "anchors": ["src/models/components/line.py:Line", "src/models/components/line.py:line_lh"]}
{"id": "C33", "title": "Ideal transformers are lossless for every ratio, phase shift and homotopy factor", "statement": "Whenever the stamped voltage relation holds, the complex power entering the primary plus the complex power entering the ideal secondary is zero, and the currents at the two terminals of each winding cancel.", "quantifier": "for all ratios, angles, homotopy factors, voltages and currents satisfying the voltage equations", "why_tests_cant": "All real operating points.", "anchors": ["src/models/components/transformer.py:xfrmr_lh"]}
{"id": "C34", "title": "Center-tap transformers are lossless", "statement": "Whenever the stamped voltage relations hold, the complex powers entering the primary and the two secondary windings sum to zero. Each winding is in series with its per unit impedance times its own nominal voltage squared over the power rating (nothing is connected in place of a zero impedance), and construction raises exactly for a zero rating.", "quantifier": "for all non-zero ratios, homotopy factors, voltages and currents satisfying the voltage equations", "why_tests_cant": "All real operating points.", "anchors": ["src/models/components/center_tap_transformer.py:center_tap_xfmr_lh"]}
{"id": "C35", "title": "Homotopy endpoints", "statement": "At homotopy factor 0 every model is the original one; at factor 1 transformers have ratio 1 and no phase shift, shunts draw nothing, and series admittances are 21 times the original.", "quantifier": "for all parameters and voltages", "why_tests_cant": "All real parameters.", "anchors": ["src/models/components/line.py", "src/models/components/transformer.py", "src/models/components/center_tap_transformer.py"]}
{"id": "C36", "title": "Unbalanced lines: phase currents are the admittance matrix times the voltage drops", "statement": "The total contribution of an n-phase line in the row of phase i at the sending end is sum_j Y_ij (Vf_j - Vt_j) + sum_j j*(B_ij/2) Vf_j, the receiving end gets the negative series part plus its own shunt part; series currents at both ends cancel.", "quantifier": "for all phase counts, admittance matrices and voltages", "why_tests_cant": "All sizes and matrices.", "anchors": ["src/models/components/unbalanced_line.py:UnbalancedLine"]}
{"id": "C37", "title": "Optimality rows of unbalanced lines are correct exactly for symmetric admittances", "statement": "With optimisation the row of phase-i voltage contains sum_j (real form of Y_ij)^T lambda_j, whereas the derivative of the Lagrangian is sum_j (real form of Y_ji)^T lambda_j; the two agree for every multiplier if and only if the admittance matrix is symmetric.", "quantifier": "for all phase counts, admittance matrices and multipliers", "why_tests_cant": "All sizes and matrices.", "anchors": ["src/models/components/unbalanced_line.py:UnbalancedLine.assign_nodes", "src/logic/stamping/lagrangestampdetails.py:LagrangeStampDetails"]}
{"id": "C38", "title": "Generators and slacks hold their set points", "statement": "At a solution of the stamped equations a generator bus has voltage magnitude exactly Vset and the generator injects its scheduled active power P; a slack bus has exactly the set complex voltage.", "quantifier": "for all set points and solutions", "why_tests_cant": "All real solutions.", "anchors": ["src/models/components/generator.py:lh", "src/models/components/slack.py:lh"]}
{"id": "C39", "title": "Infeasibility analysis minimises the total squared infeasibility current (L2)", "statement": "For a network whose equations are affine in the unknowns, any solution of the stamped optimality system gives infeasibility currents whose total squared magnitude is minimal among all currents that make the equations solvable; in particular they vanish if the network is feasible.", "quantifier": "for all affine networks of any size and all solutions", "why_tests_cant": "Optimality is a statement about all competitors.", "anchors": ["src/models/optimization/L2infeasibility.py", "src/logic/stamping/lagrangesegment.py"]}
{"id": "C40", "title": "The L1 infeasibility option solves a least-squares problem instead", "statement": "Because each sign multiplier shares the matrix index of the current it belongs to, the stamped L1 system forces I_plus - I_minus = lambda and allows negative I_plus, I_minus: the net current depends linearly on the multiplier exactly as in an L2 problem and the non-negativity of the current parts is violated at every solution with |lambda| < 1. On a network of linear elements a solution minimises the sum of the squares of the net currents, not the sum of magnitudes.", "quantifier": "for all solutions of the stamped rows", "why_tests_cant": "The rows are assembled from aliased indices; only the algebra over all solutions shows the effect.", "anchors": ["src/models/optimization/L1infeasibility.py"]}
{"id": "C41", "title": "Voltage sources, sensors and switches", "statement": "A voltage source fixes the voltage difference between its terminals and passes the same current in and out; a closed switch equalises its terminal voltages; an open switch contributes no equation, unknown, stamp or connection.", "quantifier": "for all set points, voltages and currents", "why_tests_cant": "All real operating points.", "anchors": ["src/models/components/voltagesource.py", "src/models/components/switch.py"]}
{"id": "C42", "title": "Matrix indices are a bijection onto 0 .. size_Y-1", "statement": "assign_matrix gives every unknown of every element its own index, the indices used are exactly 0 .. size_Y - 1, and repeated assignment gives the same result. The elements with stamps are exactly those of the lists belonging to the kind of the network.", "quantifier": "for all networks (element lists of any kind and length), with and without optimisation", "why_tests_cant": "All network compositions.", "anchors": ["src/logic/network/networkmodel.py:NetworkModel.assign_matrix", "src/logic/stamping/lagrangestampdetails.py:build_two_terminal_stamp_details"]}
{"id": "C43", "title": "One equation row per unknown", "statement": "With or without optimisation every unknown an element brings is the row of some equation of that element, every equation has a row (or is the ground's and dropped) and no row or column lies outside 0 .. size_Y-1: the system is square by construction. A bus nothing is connected to is never stamped: its rows and columns stay empty and the matrix is singular.", "quantifier": "for all networks", "why_tests_cant": "All network compositions.", "anchors": ["src/logic/network/networkmodel.py:NetworkModel.assign_matrix", "src/logic/stamping/lagrangestampdetails.py"]}
{"id": "C44", "title": "Initial vector", "statement": "generate_v_init writes each bus's initial (or flat) voltage to that bus's indices, the negated reactive power start of every generator and the start currents of every slack to theirs, and 0 everywhere else; the real dual unknown of each bus is set to 1e-4. The imaginary dual unknown is never initialised (it stays 0), contrary to the intent of get_Li_init. The three-phase version writes exactly the initial bus voltages.", "quantifier": "for all transmission networks", "why_tests_cant": "All networks; the missing initialisation is invisible in results that converge anyway.", "anchors": ["src/logic/network/networkmodel.py:TxNetworkModel.generate_v_init", "src/models/components/bus.py:Bus.get_Li_init"]}
{"id": "C45", "title": "Power flow is refused unless the node graph is connected", "statement": "PowerFlow.execute raises unless the graph whose nodes are the names of the non-virtual buses and whose edges are the element connections (loads and ground excluded) has exactly one connected component; in particular a network without buses is refused. Two nodes are in the same component exactly if a path of connections joins them.", "quantifier": "for all networks", "why_tests_cant": "All graphs.", "anchors": ["src/logic/graphanalyzer.py:GraphAnalyzer", "src/logic/powerflow.py:PowerFlow.execute"]}
{"id": "C46", "title": "The island check does not see phases", "statement": "The islands found depend only on names, ground and virtual flags of buses, not on phases; adding a bus that is connected to nothing but has the name of an existing one never changes whether the network is accepted, so a network with an unconnected phase (or with two unconnected equal-named transmission buses) passes.", "quantifier": "for all networks; with witnesses", "why_tests_cant": "A negative: shows the guarantee users infer is absent.", "anchors": ["src/logic/graphanalyzer.py:GraphAnalyzer"]}
{"id": "C47", "title": "Nominal voltage check: guarantee and order dependence", "statement": "If the check passes, all nodes of a voltage region (first phase each) have nominal voltages within 10 of the rounded nominal of one of them, hence within 20 of each other; regions whose nominal voltages differ by at most 9.5 pass in every order; phases other than the first are not checked; whether a region passes can depend on the order in which the (unordered) set of nodes is visited.", "quantifier": "for all regions; plus a witness with two orders and different verdicts", "why_tests_cant": "Set iteration order of strings varies between runs.", "anchors": ["src/logic/graphanalyzer.py:GraphAnalyzer.validate_voltage_islands"]}
{"id": "C48", "title": "Selecting an island keeps exactly its interior, and drops every grounded load and capacitor", "statement": "For a network as the parser leaves it, selecting the island of a place keeps exactly the proper buses connected to that place, the lines, transformers and closed switches all of whose connections stay inside, the inner buses of what is kept, and the slack, generators, loads, fuses, regulators and capacitors all of whose terminals are non-ground and inside. Since ground is never one of the buses, every load or capacitor connected to ground is removed even inside the selected island; open switches stay wherever they are; a name that is no place raises.", "quantifier": "for all networks and swing bus names", "why_tests_cant": "All networks.", "anchors": ["src/logic/network/timeseriesprocessor.py:TimeSeriesProcessor.select_island"]}
{"id": "C49", "title": "Load factor", "statement": "modify_load_factor multiplies P and Q of every load, composes multiplicatively, and leaves constant current and constant impedance parts alone, so total demand does not scale for such loads; running the command line tool without --load_factor negates every P and Q.", "quantifier": "for all networks and factors", "why_tests_cant": "All networks; the default is not exercised by the tests, which bypass the command line.", "anchors": ["src/logic/network/loadfactor.py:modify_load_factor", "src/run_solver.py:main"]}
{"id": "C50", "title": "Reported slack and transformer power are not the complex power", "statement": "The reported slack P, Q are Vr*Ir and Vi*Ii, which equal the complex power V*conj(I) only on a thin set; the transformer result has the same defect, while the center-tap result is the exact complex power drawn at its secondaries, equal to the power through the primary where the winding equations hold. In particular a slack at angle 0 always reports Q = 0. The numbers reported for a generator are exactly the power it draws, so a generator feeding P into the network is reported with -P.", "quantifier": "for all voltages and currents: exact condition for equality", "why_tests_cant": "Shipped cases have slack angle 0, where P happens to be right.", "anchors": ["src/logic/powerflowresults.py:PowerFlowResults", "src/logic/powerflowresults.py:TransformerResult", "src/logic/powerflowresults.py:CenterTapTransformerResult"]}
{"id": "C51", "title": "Infeasibility totals of zero do not mean feasible", "statement": "Each term of the reported infeasibility totals is non-negative and totals of (0,0) are reported whenever all products Vr*Ir and Vi*Ii are below 1e-5, in particular for arbitrarily large infeasibility currents of negative product; report_infeasible then lists nothing.", "quantifier": "for all results; with witnesses of arbitrary size", "why_tests_cant": "All operating points.", "anchors": ["src/logic/powerflowresults.py:PowerFlowResults.try_load_infeasibility_data", "src/logic/powerflowresults.py:PowerFlowResults.report_infeasible"]}
{"id": "C52", "title": "Load profiles: magnitude and power factor; history dependence", "statement": "Applying a positive magnitude sets the apparent power to it and keeps the power factor of the load, so after any sequence of positive magnitudes the load depends only on the last one and the base case; this fails after a zero magnitude (the power factor is lost) and after a negative one (the load is reversed in later hours).", "quantifier": "for all base loads and all sequences of magnitudes", "why_tests_cant": "All profiles.", "anchors": ["src/logic/network/timeseriesprocessor.py:TimeSeriesProcessor.set_load_values"]}
{"id": "C53", "title": "Generator adjustment loop: exit condition", "statement": "If the adjustment loop ends with an artificial swing bus and negative loads configured, the swing bus output of the returned snapshot sums to less than 0.1 in magnitude; each pass adds exactly the reported swing output to the matching phase of the negative loads and changes no other load; there is no bound on the number of passes (a solver whose swing output never vanishes loops forever).", "quantifier": "for all networks and solver behaviours", "why_tests_cant": "Loops of unbounded length.", "anchors": ["src/logic/network/timeseriesprocessor.py:TimeSeriesProcessor.adjust_generator_output", "src/logic/network/timeseriesprocessor.py:TimeSeriesProcessor.execute_powerflow"]}
{"id": "C54", "title": "Overloaded transformers can go unreported", "statement": "violates_equipment_ratings returns exactly the disjunction of the line, transformer and bus checks and raises exactly if a line has fewer ampacities than phases or a bus has nominal voltage 0. Unflagged buses are within 5 percent and unflagged center-tap transformers within their rating; but a transformer with any overload is not flagged when its current is in quadrature with the components used (purely reactive load on a real voltage).", "quantifier": "for all operating points; plus witness of arbitrary overload", "why_tests_cant": "All operating points.", "anchors": ["src/logic/network/timeseriesprocessor.py:TimeSeriesProcessor.violates_equipment_ratings"]}
{"id": "C55", "title": "Load names are not unique", "statement": "The name under which a load is looked up in a load file is not injective in (number, phase): a 1-2 triplex load and a phase 1 load with the same number share a name, the later one wins, and the earlier one is never updated.", "quantifier": "there exist two loads; for alphabetic phases with fixed-length phases the name determines number and phase", "why_tests_cant": "Needs particular load sets.", "anchors": ["src/logic/network/timeseriesprocessor.py:TimeSeriesProcessor.get_load_name", "src/logic/network/timeseriesprocessor.py:TimeSeriesProcessor.set_load_names"]}
{"id": "C56", "title": "Three-winding star equivalent", "statement": "The star impedances computed from the three pairwise impedances reproduce every pairwise impedance as the sum of two star impedances; but creating the star elements always fails, because the star bus is looked up under a bus number that was never registered.", "quantifier": "for all impedances; for all bus tables without a bus numbered -1", "why_tests_cant": "All real impedances.", "anchors": ["src/logic/network/parsers/raw/parse_transformers.py"]}
{"id": "C57", "title": "RAW: generators", "statement": "Deleting a machine that is out of service or sits on a bus that is neither PV nor slack never changes the network read; two regulating machines on one PV bus make parsing fail with an attribute error, and so does a regulating machine together with a continuous switched shunt.", "quantifier": "for all generator tables", "why_tests_cant": "All tables.", "anchors": ["src/logic/network/parsers/raw/parser.py", "src/models/components/generator.py:Generator.__init__"]}
{"id": "C58", "title": "RAW: switched shunt limits", "statement": "The computed Bmin/Bmax bound the total susceptance reachable with the steps up to the first empty block; blocks after an empty block are ignored, so reachable susceptances can lie outside [Bmin, Bmax].", "quantifier": "for all block lists", "why_tests_cant": "All block lists.", "anchors": ["src/logic/network/parsers/raw/parser.py:compute_bmin_bmax"]}
{"id": "C59", "title": "Phase lists of three phase transformers", "statement": "For a delta winding the positive/negative phase pairs form one cycle through the phases (each phase is once positive and once negative, never both in one pair for two or more phases); for a wye winding every phase is paired with neutral.", "quantifier": "for all duplicate-free phase strings", "why_tests_cant": "All phase strings.", "anchors": ["src/logic/network/parsers/threephase/transformerparser.py:get_phase_list"]}
{"id": "C60", "title": "Residual dictionaries merge by addition", "statement": "merge_residuals yields, for every key, the target value plus the sum of all inputs' values; the order of inputs does not matter and no key is lost.", "quantifier": "for all dictionaries", "why_tests_cant": "All dictionaries.", "anchors": ["src/models/helpers.py:merge_residuals"]}
{"id": "C61", "title": "The assembled matrix is the Jacobian of the network equations; solving it is Newton's step", "statement": "For any list of elements and after any earlier calls, one assembly at operating point v with a new iteration number yields a matrix whose entry (r,c) is the partial derivative of row r of the network equations with respect to unknown c at v; a solution v' of the assembled system satisfies F(v) + Y (v'-v) = 0 in every row, and if v' = v then v solves the network equations.", "quantifier": "for all element lists, call histories, rows, columns and operating points where the models are defined", "why_tests_cant": "A statement about limits, all real operating points, and all sharing patterns between elements.", "anchors": ["src/logic/stamping/matrixstamper.py:MatrixStamper", "src/logic/stamping/lagrangesegment.py:split_expr", "src/logic/nrsolver.py:NRSolver.run_powerflow"]}
{"id": "C62", "title": "Shunts and capacitors draw the power their rating says", "statement": "A shunt of G MW and B MVAr draws (G - jB)|V|^2 in units of the 100 MVA base; a closed capacitor bank of given reactive power draws no active power and delivers that reactive power scaled by (|V|/Vnom)^2; an open bank contributes nothing.", "quantifier": "for all ratings, voltages and homotopy factors", "why_tests_cant": "Holds for all real voltages and ratings; tests sample a few.", "anchors": ["src/models/components/shunt.py:Shunt.get_stamps", "src/models/components/capacitor.py:Capacitor.get_stamps"]}
{"id": "C63", "title": "Fuses and regulators: series devices with a current sensor", "statement": "The rows stamped by a fuse are those of a branch with the fixed admittance followed by an ideal sensor; the rows stamped by a regulator are those of an ideal transformer with the tap ratio, a 1e-4 ohm resistance and an ideal sensor. Where a regulator's rows are satisfied, the sensor current is the ratio times the input current, the input voltage is the ratio times the output voltage plus the small drop, and the only loss is that in the resistance.", "quantifier": "for all ratios, voltages and currents", "why_tests_cant": "Statement about every solution of the stamped rows.", "anchors": ["src/models/components/fuse.py:Fuse.get_stamps", "src/models/components/regulator.py:Regulator.get_stamps"]}
{"id": "C64", "title": "Unbalanced lines are accepted only with a working inverse; a phase of zero impedance is always rejected", "statement": "Whatever the inversion routine does, an unbalanced line that is constructed has 1 to 3 phases, as many phase names as matrix rows, stored impedances equal to length times the given ones, and admittances whose product with the impedances is within 1.2e-5 of the identity. A matrix with a zero row is therefore always rejected, although calcInverse contains code to handle it. Conversely one phase of non-zero impedance and length is always accepted with its exact admittance, and two or three phases are accepted whenever the routine returns the inverse.", "quantifier": "for all impedance matrices, lengths, phase lists and inversion routines", "why_tests_cant": "Quantifies over every behaviour of the linear algebra routine and every matrix.", "anchors": ["src/models/components/unbalanced_line.py:calcInverse", "src/models/components/unbalanced_line.py:UnbalancedLine.__init__"]}
{"id": "C65", "title": "Optimality rows are the gradient of the summed Lagrangian", "statement": "When optimising, row c of the network equations is the partial derivative, with respect to unknown c, of the sum of the Lagrangians of all elements, even where several names of one element or several elements share an index; a solution of the system is therefore exactly a stationary point of the total Lagrangian.", "quantifier": "for all lists of elements without a separate equation map, all points where the Lagrangians are defined, all unknowns", "why_tests_cant": "A limit statement over all networks and real operating points.", "anchors": ["src/logic/stamping/lagrangestampdetails.py:LagrangeStampDetails", "src/logic/stamping/matrixstamper.py:build_stamps_from_stamper"]}
{"id": "C66", "title": "Line rating check ignores coupling between phases", "statement": "The line current compared with the ampacity is computed from the diagonal of the admittance matrix only: it equals the series current of the solved equations exactly if the contributions of the other phases sum to zero, so a phase carrying any current can go unflagged.", "quantifier": "for all operating points and admittance matrices; with witnesses of arbitrary size", "why_tests_cant": "All coupled lines; shipped tests never compare the line result with the solved currents.", "anchors": ["src/logic/powerflowresults.py:LineResult", "src/models/components/unbalanced_line.py:UnbalancedLine.loop_lines", "src/logic/network/timeseriesprocessor.py:TimeSeriesProcessor.violates_equipment_ratings"]}
{"id": "C67", "title": "Failures of the time series run are replaced by a plain power flow", "statement": "For positive sequence cases and for missing load files the time series options are ignored and the plain power flow is reported. When the power flow of an hour raises, the results of all earlier hours are lost and one snapshot with the loads of the failed hour is reported; when a swing phase has no negative load, the snapshot of the partly adjusted loads is reported.", "quantifier": "for all solver behaviours, load files, hours and networks", "why_tests_cant": "Needs failing runs.", "anchors": ["src/run_solver.py:main", "src/logic/network/timeseriesprocessor.py:TimeSeriesProcessor.execute", "src/logic/network/timeseriesprocessor.py:TimeSeriesProcessor.execute_quasi_time_series"]}
{"id": "C68", "title": "Hours simulated", "statement": "The hours simulated are exactly start, ..., end-1 in order, one snapshot each, where a missing bound counts as 0 (so without an end no hour is simulated and an empty series is reported as success); the snapshot of an hour is that of the loads after the profiles of all hours so far, which for a full table of positive values are the loads of that hour alone.", "quantifier": "for all tables, bounds and solver behaviours", "why_tests_cant": "All tables.", "anchors": ["src/logic/network/timeseriesprocessor.py:TimeSeriesProcessor.execute_quasi_time_series", "src/logic/network/timeseriessettings.py:TimeSeriesSettings"]}
{"id": "C69", "title": "RAW: unit conventions of transformer records", "statement": "Whatever winding voltage code (per unit of bus voltage, kV, per unit of nominal voltage) and impedance code (system base, winding base, load loss and magnitude) a record uses, the element created has the turns ratio and the series impedance of the physical transformer the record describes; the magnetising admittance has the stated no-load loss and exciting current.", "quantifier": "for all records, bus tables, base voltages and system bases", "why_tests_cant": "All real-valued data in nine code combinations.", "anchors": ["src/logic/network/parsers/raw/parse_transformers.py:TwoWindingXfmrs"]}
{"id": "C70", "title": "RAW: load totals", "statement": "At every bus the active power of the loads created is the total of the in-service loads there minus the output of the machines that cannot regulate, divided by 100. Constant-current parts are passed on without conversion to per unit, and constant-admittance parts have no effect at all.", "quantifier": "for all accepted cases and buses", "why_tests_cant": "All tables.", "anchors": ["src/logic/network/parsers/raw/parser.py:parse_raw", "src/logic/network/parsers/raw/data_classes.py:Load_data"]}
{"id": "C71", "title": "RAW: shunt totals", "statement": "At every bus the susceptance of the shunts created is the total of the initial susceptances of the in-service stepped shunts and of the in-service fixed shunts, divided by 100; the conductance is that of the fixed shunts.", "quantifier": "for all accepted cases and buses", "why_tests_cant": "All tables.", "anchors": ["src/logic/network/parsers/raw/parser.py:parse_raw", "src/logic/network/parsers/raw/data_classes.py"]}
{"id": "C72", "title": "RAW: machines on slack buses", "statement": "Each slack bus gets one slack element; its power is the total of its in-service machines if the system base is 100 MVA, while for another base the machines after the first are divided by that base and the first by 100.", "quantifier": "for all accepted cases; for every non-zero base a witness", "why_tests_cant": "All tables and bases; shipped cases use 100 MVA.", "anchors": ["src/logic/network/parsers/raw/parser.py:parse_raw"]}
{"id": "C73", "title": "RAW: lines", "statement": "Every line created has the series admittance that is the exact inverse of the impedance of an in-service branch record between the same buses, and half its charging; in-service branches with a line shunt or with zero impedance make parsing fail.", "quantifier": "for all cases", "why_tests_cant": "All tables.", "anchors": ["src/logic/network/parsers/raw/parser.py:parse_raw", "src/logic/network/parsers/raw/data_classes.py:Branch_data"]}
{"id": "C74", "title": "RAW: cases accepted and network created", "statement": "A case is accepted exactly when it satisfies a stated list of conditions, and the network is then exactly one determined by the tables: every in-service record gives one element, in order, nothing else does.", "quantifier": "for all RAW tables with distinct bus numbers and no bus numbered -1", "why_tests_cant": "All tables, including those that make parsing fail.", "anchors": ["src/logic/network/parsers/raw/parser.py:parse_raw", "src/logic/network/parsers/raw/data_classes.py"]}
{"id": "C75", "title": "RAW: elements are attached to buses of the network", "statement": "In every accepted case each slack, generator, load, shunt, line and transformer is attached to buses that are part of the network; isolated buses are not part of it.", "quantifier": "for all accepted cases", "why_tests_cant": "All tables.", "anchors": ["src/logic/network/parsers/raw/parser.py:parse_raw"]}
{"id": "C76", "title": "RAW: one voltage source per bus", "statement": "In an accepted case no bus has two generator elements (machines or continuous shunts); but a continuous shunt on a slack bus gives that bus a second voltage source with a different set point.", "quantifier": "for all accepted cases; with a witness", "why_tests_cant": "All tables.", "anchors": ["src/logic/network/parsers/raw/parser.py:parse_raw"]}
{"id": "C77", "title": "Three-phase parser: two-winding transformers", "statement": "A two-winding transformer gives one single-phase unit per phase of its first winding, in order. Each unit is between the buses of that phase at its two ends (second terminal: ground for wye, the bus of the next phase for delta), its ratio is the quotient of the coil voltages, its series admittance is the exact inverse of twice the second winding's resistance plus the reactance, referred to the secondary coil, its angle is the stated phase shift in radians.", "quantifier": "for all accepted distribution models with known phase letters", "why_tests_cant": "All windings, phase lists, connections, ratings and voltages.", "anchors": ["src/logic/network/parsers/threephase/transformerparser.py:create_three_phase_transformer", "src/logic/network/parsers/threephase/transformerparser.py:get_phase_list"]}
{"id": "C78", "title": "Three-phase parser: magnetising shunt conversion is inverted", "statement": "The magnetising admittance of a unit is the inverse of the per-unit shunt impedance times S/V^2, not times V^2/S as for the series impedance; it differs from the right value by the factor (V^2/S)^2 and is right exactly when V^2 = S.", "quantifier": "for all accepted models with a non-zero shunt impedance and positive rating; with a witness", "why_tests_cant": "Wrong for all data except a measure-zero set, but the effect on voltages is small in every shipped case.", "anchors": ["src/logic/network/parsers/threephase/transformerparser.py:create_three_phase_transformer"]}
{"id": "C79", "title": "Three-phase parser: center-tap transformers", "statement": "A center-tap transformer gives one element, whose primary is on the bus of its phase, whose secondary terminals are the buses of phases 1 and 2 and of neutral at the other end, and whose ratio, series admittances and magnetising admittance are those of the stated windings.", "quantifier": "for all accepted models", "why_tests_cant": "All windings and shunt values.", "anchors": ["src/logic/network/parsers/threephase/transformerparser.py:create_center_tap_transformer"]}
{"id": "C80", "title": "Three-phase parser: the bus table", "statement": "Bus numbers are 0,1,2,... in table order. There is exactly one bus for every root node and known phase it has, and none for anything else (before elements add interior buses).", "quantifier": "for all node lists with distinct names", "why_tests_cant": "All node lists.", "anchors": ["src/logic/network/parsers/threephase/threephaseparser.py:create_buses"]}
{"id": "C81", "title": "Three-phase parser: children share the bus of their root ancestor", "statement": "Two (node, phase) pairs lead to the same bus exactly when the phases are equal and the nodes hang from the same root node. A parent has to come before its child in the model and has to have the child's phases, otherwise parsing fails. A bus of a root node starts at the given voltage of its phase, without one at the nominal voltage with the angle of the phase, on triplex phases always at -60+j103.92 and 60-j103.92.", "quantifier": "for all accepted node lists", "why_tests_cant": "All parent relations, any depth and order.", "anchors": ["src/logic/network/parsers/threephase/threephaseparser.py:create_buses"]}
{"id": "C82", "title": "Three-phase parser: swing sources", "statement": "Every known phase of every swing node gives one source, in order, on the bus of that phase; a root node's source has the node's nominal voltage and the standard angle of the phase. A swing node that is a child gets the voltage and angle of whichever bus was created last, even of an unrelated node.", "quantifier": "for all accepted node lists; with a witness", "why_tests_cant": "All node lists; needs a child swing node.", "anchors": ["src/logic/network/parsers/threephase/threephaseparser.py:create_buses"]}
{"id": "C83", "title": "Three-phase parser: elements leave node buses alone", "statement": "Creating the elements keeps all sources and all names, phases and numbers of the buses of the nodes; it only appends interior buses, and the (name, phase) look-up of every node is unchanged. A model with an element of a class the parser does not know is refused.", "quantifier": "for all accepted models with known phase letters", "why_tests_cant": "All models.", "anchors": ["src/logic/network/parsers/threephase/threephaseparser.py"]}
{"id": "C84", "title": "Three-phase parser: capacitors", "statement": "Each known phase of each capacitor gives one capacitor on the bus of its node and phase with the stated susceptance and switch state. Creating it also overwrites the initial voltage of that bus; the initial voltages of all other buses stay as created.", "quantifier": "for all accepted models", "why_tests_cant": "All models; the effect on initial voltages is hidden in a converged solution.", "anchors": ["src/logic/network/parsers/threephase/threephaseparser.py:create_capacitor"]}
{"id": "C85", "title": "Three-phase parser: regulators", "statement": "Each phase of the first winding of each regulator gives one regulator between the from and to buses of that phase, with its own interior bus; its band is the stated centre and width, its tap is the stated one clamped to the stated range, its step is twice the regulation over the number of steps, and its ratio is the one of type A or B for that tap. Only regulators with two windings of three phases each, both connected Y, are accepted.", "quantifier": "for all accepted models", "why_tests_cant": "All models.", "anchors": ["src/logic/network/parsers/threephase/threephaseparser.py:create_regulator"]}
{"id": "C86", "title": "Three-phase parser: loads", "statement": "Each phase load of each load gives one load on the buses of its phase (or phase pair), with the stated powers, impedances and currents; its name is only the part of the stated name after the last underscore, so different loads may get equal names.", "quantifier": "for all accepted models; with a witness", "why_tests_cant": "All models.", "anchors": ["src/logic/network/parsers/threephase/threephaseparser.py:create_load"]}
{"id": "C87", "title": "Three-phase parser: fuses and switches", "statement": "Every wire of a fuse, and every wire of a switch whose phase is one of the switch, gives one element between the buses of that phase at the two ends (a fuse also gets an interior bus). A switch is open exactly when its wire is; the open flags of the wires of a fuse have no effect at all on the network.", "quantifier": "for all accepted models; the last part for all models", "why_tests_cant": "All models.", "anchors": ["src/logic/network/parsers/threephase/threephaseparser.py:create_transmission_line"]}
{"id": "C88", "title": "Three-phase parser: lines and references", "statement": "Every remaining line gives one line element with its non-neutral phases, its impedance (and, if enabled, shunt) matrix scaled by length and an admittance matrix that inverts the impedance up to about 1e-5 per entry; and every bus number used by any element created is one of the bus table.", "quantifier": "for all accepted models with known phase letters", "why_tests_cant": "All models.", "anchors": ["src/logic/network/parsers/threephase/threephaseparser.py"]}
{"id": "C89", "title": "Debug validity check of the matrix", "statement": "In debug mode the check before each solve passes exactly when there is a size n>0 such that the rows with entries and the columns with entries are both exactly 0..n-1; outside debug mode it always passes.", "quantifier": "for all matrix builders", "why_tests_cant": "All entry lists.", "anchors": ["src/logic/stamping/matrixbuilder.py:MatrixBuilder.assert_valid"]}
{"id": "C90", "title": "GridLAB-D reader: a well-formed file is read completely", "statement": "A file made of objects (optionally named object cls:num), attribute rows with or without quotes, semicolons and comments, blank and comment rows, and rows outside objects is read into a dictionary that has, for every object name, exactly the last object of that name with its class and the last value of each attribute; an object without a name is stored as from-to; with distinct names the dictionary is in file order.", "quantifier": "for all files of that shape whose classes and attributes are in the schema", "why_tests_cant": "All texts.", "anchors": ["src/ditto/readers/gridlabd/read.py:read_gld_objects_and_schedules", "src/ditto/formats/gridlabd/base.py:GridLABDBase"]}
{"id": "C91", "title": "GridLAB-D reader: layout does not matter", "statement": "Blank and comment rows may be put in anywhere, the blanks around any row may change, and a comment may be put behind a row that does not end with a closing brace (or directly behind the last character of any row), without changing the outcome - including errors - from any reader state (comments behind rows: files without schedules).", "quantifier": "for all lists of rows and all states", "why_tests_cant": "All texts and all places.", "anchors": ["src/ditto/readers/gridlabd/read.py:read_gld_objects_and_schedules"]}
{"id": "C92", "title": "GridLAB-D reader: a comment after a closing brace loses the rest of the file", "statement": "If the closing brace of an object is followed by white space and a comment, the object is never closed: when the rest of the file consists of objects, either reading raises, or the dictionary contains exactly the objects before it - that object and all later ones are missing without any message.", "quantifier": "for all files with such a row", "why_tests_cant": "All texts.", "anchors": ["src/ditto/readers/gridlabd/read.py:read_gld_objects_and_schedules"]}
{"id": "C93", "title": "GridLAB-D reader: nested objects are merged into the outer object", "statement": "An object written inside another one (one level) does not become an object: its attribute rows overwrite those of the outer object, so that the outer object is stored under the nested object's name.", "quantifier": "for all files with nested objects whose attributes the outer class knows", "why_tests_cant": "All texts.", "anchors": ["src/ditto/readers/gridlabd/read.py:read_gld_objects_and_schedules"]}
{"id": "C94", "title": "GridLAB-D reader: units separated by a blank are dropped", "statement": "An attribute row with a unit word behind the value has the same effect as the row without it, whatever the unit, except inches in a line_spacing and MVAr in a capacitor: 'length 1 mile' is 'length 1'.", "quantifier": "for all rows, all surrounding rows and all states without an open schedule", "why_tests_cant": "All texts.", "anchors": ["src/ditto/readers/gridlabd/read.py:read_gld_objects_and_schedules"]}
{"id": "C95", "title": "GridLAB-D reader: included files", "statement": "The objects of included files are read after all objects of the including file, wherever the #include row stands, and the #include rows of an included file are not followed. If an included file is missing nothing is read.", "quantifier": "for all pairs of well-formed files", "why_tests_cant": "All texts.", "anchors": ["src/ditto/readers/gridlabd/read.py:read_gld_objects_and_schedules"]}
{"id": "C96", "title": "GridLAB-D reader: unused classes are skipped, unknown names refused", "statement": "An object of a class the simulator does not use leaves no trace; an unknown class, an attribute unknown to the class, and an object with neither a name nor both ends raise AttributeError.", "quantifier": "for all well-formed files around such an object", "why_tests_cant": "All texts.", "anchors": ["src/ditto/readers/gridlabd/read.py:read_gld_objects_and_schedules", "src/ditto/formats/gridlabd/base.py:GridLABDBase.__setitem__"]}
{"id": "C97", "title": "GridLAB-D reader: which phases a text means", "statement": "For a phases text, possibly wrapped in quotes and bars, reading it succeeds exactly when it has a letter other than N, S, D, G, and only one such letter if it contains S; the phases are those letters in order, and the neutral, triplex and delta flags say whether N, S, or neither of the two occurs. D alone is not consulted, and bars inside the text (A|B) count as phases.", "quantifier": "for all texts", "why_tests_cant": "All texts.", "anchors": ["src/ditto/readers/gridlabd/helpers.py:parse_phases"]}
{"id": "C98", "title": "GridLAB-D reader: every object adds exactly its own elements to the store", "statement": "If parsing a file succeeds, the store is, in the order of the objects, the concatenation of one part for each object: nothing for configurations, spacings and conductors; one load (and a node if it has no parent) for a load, a triplex_node, or a triplex_meter with a power; one node, transformer, line, fuse, switch, capacitor or regulator for the other classes, with the ends, phases, parent and name the object states; fuses and switches get one wire per phase that is open exactly if its state attribute says so, and fuses their current limit; capacitors get the rating, the switch states and control settings the object gives; nodes get the phase voltages the object gives; the nominal voltage of a node may be replaced afterwards. No other class occurs.", "quantifier": "for all lists of objects with distinct names, all schedules and all number readers", "why_tests_cant": "All files.", "anchors": ["src/ditto/readers/gridlabd/read.py:Reader.parse", "src/ditto/readers/gridlabd/load_parser.py:LoadParser.parse"]}
{"id": "C99", "title": "GridLAB-D reader: a load draws what its object says", "statement": "The load of an object sums up, for every connection, to power + constant_power + base power; its impedances and currents are exactly the nonzero impedance_, constant_impedance_ and constant_current_ values; A, B, C of a delta object mean AB, BC, CA; a base power counts only if all six ZIP fractions are given, and a product of two factors none of which is a schedule counts as 0.", "quantifier": "for all files that can be parsed, all load objects and all connections", "why_tests_cant": "All attribute texts and all combinations of attributes.", "anchors": ["src/ditto/readers/gridlabd/load_parser.py:LoadParser.__parse_phase_load", "src/ditto/readers/gridlabd/load_parser.py:LoadParser.__parse_phase_loads"]}
{"id": "C100", "title": "GridLAB-D reader: ZIP fractions and power factors are ignored", "statement": "Two load objects that differ only in the values of the fractions and power factors give the same load: the whole base power becomes constant active power.", "quantifier": "for all pairs of objects", "why_tests_cant": "All values.", "anchors": ["src/ditto/readers/gridlabd/load_parser.py:LoadParser.__parse_phase_load"]}
{"id": "C101", "title": "GridLAB-D reader: a delta load given between phases cannot be loaded", "statement": "If a delta connected load object has a nonzero power, impedance or current at AB, BC, CA, 1, 2 or 12, then whatever else the file contains, building the network from the store raises.", "quantifier": "for all files containing such an object", "why_tests_cant": "All files.", "anchors": ["src/ditto/readers/gridlabd/load_parser.py:LoadParser.__create_phaseload", "src/logic/network/parsers/threephase/threephaseparser.py:ThreePhaseParser.create_load"]}
{"id": "C102", "title": "GridLAB-D reader: parsing changes only unit texts of the objects", "statement": "Parsing keeps the names, the classes, the set of attributes and the texts of all objects, except that lengths, ratings, conductor data and distances may be replaced by the digits and full stops of their text.", "quantifier": "for all files that can be parsed", "why_tests_cant": "All files.", "anchors": ["src/ditto/readers/gridlabd/read.py:Reader.parse", "src/ditto/readers/gridlabd/line_impedance.py:compute_overhead_spacing"]}
{"id": "C103", "title": "Kron reduction keeps the phase voltages", "statement": "If the inverse handed to the reduction is a left inverse of the eliminated block, then for all phase and eliminated currents that leave the eliminated conductors at zero voltage, the voltage drop of the phases under the full matrix equals that under the reduced matrix.", "quantifier": "for all matrix sizes, all entries and all currents", "why_tests_cant": "All sizes and all complex currents.", "anchors": ["src/ditto/readers/gridlabd/line_impedance.py:kron_reduction"]}
{"id": "C104", "title": "Overhead lines: the impedance matrix follows Carson's equations", "statement": "For wires of different phases with positive distances (and positive radius, if given), the matrix over the phases A, B, C of the line has the entries of Carson's equations at 60 Hz (self: r + 0.0953 + j0.12134(ln 1/gmr + 7.93402), mutual with ln 1/d; self 0 for a wire without resistance or radius), with the neutral eliminated exactly when the phases contain N; it is symmetric if the primitive matrix is. If N is a phase but no wire carries it, the calculation raises; so it does for wires of phases other than A, B, C, N.", "quantifier": "for all wires, distances and phase lists", "why_tests_cant": "All real data.", "anchors": ["src/ditto/readers/gridlabd/line_impedance.py:compute_overhead_impedance", "src/ditto/readers/gridlabd/line_impedance.py:kron_reduction"]}
{"id": "C105", "title": "Triplex lines: the impedance matrix follows Carson's equations", "statement": "For wires 1, 2, N with resistance and positive radius the 2 x 2 matrix has the entries of Carson's equations with the neutral always eliminated; the distances are (d+2t)/12 between 1 and 2 and (d+t)/12 to the neutral, d and t being diameter and insulation thickness of the first wire that has both. A wire without resistance or radius has self impedance 0. Without a neutral wire, or with a wire of another phase, the calculation raises.", "quantifier": "for all wires", "why_tests_cant": "All real data.", "anchors": ["src/ditto/readers/gridlabd/line_impedance.py:compute_triplex_impedance"]}
{"id": "C106", "title": "Overhead lines: distances are taken by position, not by phase", "statement": "The table built from a spacing object has a row for every place (A, B, C, N, E) that occurs in a nonzero distance, in this order, with the given distances, 0 on the diagonal and -1 where nothing is given. The i-th and j-th wire of a line get the distance of the i-th and j-th place; so the distances are those of the wires' own phases if the places begin with the wires' phases, and otherwise can be wrong (witness: conductors A and C with a spacing for A, B, C get the distance of A and B).", "quantifier": "for all spacing objects and wires", "why_tests_cant": "All sets of distances.", "anchors": ["src/ditto/readers/gridlabd/line_impedance.py:compute_overhead_spacing", "src/ditto/readers/gridlabd/line_impedance.py:compute_overhead_impedance"]}
{"id": "C107", "title": "Impedances given directly in a line configuration are never used", "statement": "The lookup of the matrix entries z11..z33 and c11..c33 finds nothing, whatever the configuration says. So a triplex line whose configuration has no conductors makes reading fail, and so does an overhead line without conductors whose phases contain N; an overhead line without conductors and without N is read with no wires and a zero impedance matrix.", "quantifier": "for all files, positions of the line and texts of the configuration", "why_tests_cant": "All files.", "anchors": ["src/ditto/readers/gridlabd/line_impedance.py:try_load_direct_line_impedance", "src/ditto/readers/gridlabd/read.py:Reader.parse"]}
{"id": "C108", "title": "Line lengths are in metres", "statement": "Every overhead, triplex and underground line of a file becomes one line whose length is 1000 times the number in its text if the text contains km, and 0.3048 times its number otherwise, whatever the other objects of the file do.", "quantifier": "for all files and all lines", "why_tests_cant": "All files.", "anchors": ["src/ditto/readers/gridlabd/read.py:parse_line_length", "src/ditto/readers/gridlabd/read.py:Reader.parse"]}
{"id": "C109", "title": "A conductor's unit is converted for the first line only", "statement": "If an overhead line comes after another one that uses the same conductor object, and the conductor's resistance is given in Ohm/km, then the later line takes the number as ohms per mile; the diagonal entry of its impedance is Carson's with the unconverted number. Witness: two identical lines of one file get different impedances.", "quantifier": "for all files, pairs of lines and conductors", "why_tests_cant": "All files and all orders of their objects.", "anchors": ["src/ditto/readers/gridlabd/read.py:Reader.parse"]}
{"id": "C110", "title": "Overhead lines from the file to the line model", "statement": "For every overhead line of a file whose configuration gives conductors with resistance and positive radius and a spacing whose places begin with the conductors' phases, the line has one closed wire for each conductor with its emergency rating, and the impedance matrix over the line's phases A, B, C is Carson's matrix for these data, with the neutral eliminated exactly when N is among the phases, divided by 1609.344; units are converted on first use only.", "quantifier": "for all files and positions of the line", "why_tests_cant": "All files, all sharing patterns of conductors and configurations.", "anchors": ["src/ditto/readers/gridlabd/read.py:Reader.parse", "src/ditto/readers/gridlabd/line_impedance.py:compute_overhead_impedance", "src/ditto/readers/gridlabd/line_impedance.py:compute_overhead_spacing"]}
{"id": "C111", "title": "Triplex lines from the file to the line model", "statement": "For every triplex line of a file whose configuration gives conductors with resistance and radius without units, a positive diameter and an insulation thickness, the line has one closed wire for each conductor with its emergency rating, and its 2 x 2 impedance matrix is Carson's with the neutral eliminated, divided by 1609.344, for the distances (d+2t)/12 and (d+t)/12.", "quantifier": "for all files and positions of the line", "why_tests_cant": "All files.", "anchors": ["src/ditto/readers/gridlabd/read.py:Reader.parse", "src/ditto/readers/gridlabd/line_impedance.py:compute_triplex_impedance"]}
{"id": "C112", "title": "A line without configuration takes the wires of the last configured line", "statement": "If a file with a line that has no configuration can be read, then some line before it has one, and it gets the wires (phases and ratings) of the last such line, of whatever class.", "quantifier": "for all files and positions", "why_tests_cant": "All files.", "anchors": ["src/ditto/readers/gridlabd/read.py:Reader.parse"]}
{"id": "C113", "title": "Transformers from the file to the model", "statement": "For every transformer of a file with a configuration, connections and center tap follow connect_type, the first two windings have the stated voltages (times 1000 with kV), the rated power is 1000 times power_rating or the sum of the stated phase ratings (halved on the coils of a center tap), the first winding has half the resistance and the others all or half of it, and the reactances are the stated ones, split 0.8/0.4/0.4 for a center tap. The same configuration used by several transformers gives the same values. The third coil of a center tap has minus the bare number of secondary_voltage, without the factor for kV.", "quantifier": "for all files, positions of the transformer and uses of its configuration", "why_tests_cant": "All files and sharing patterns.", "anchors": ["src/ditto/readers/gridlabd/read.py:Reader.parse"]}
{"id": "C114", "title": "Regulators from the file to the model", "statement": "A file with a regulator can only be read if its configuration exists, its connect_type is absent or wye-wye, and the band, the tap limits, the regulation and the control are given; then the regulator has exactly these values, the stated tap positions, type B unless stated, and its phases followed by every phase of A, B, C for which the configuration gives a tap or compensator setting.", "quantifier": "for all files and regulators", "why_tests_cant": "All files.", "anchors": ["src/ditto/readers/gridlabd/read.py:Reader.parse"]}
{"id": "C115", "title": "The last child decides the nominal voltage of a node", "statement": "After the whole file, the nominal voltage of a node that is not the source is that of the last later node or meter naming it as parent, even if that child states none; without such a child, and for source nodes, it is the node's own.", "quantifier": "for all files and nodes", "why_tests_cant": "All files and orders of their objects.", "anchors": ["src/ditto/readers/gridlabd/read.py:Reader.parse"]}
{"id": "C116", "title": "Clean files give stores the parser can work with", "statement": "If the names of a file's objects are distinct and the phases of its objects are letters among A, B, C, 1, 2 (and the markers N, S, D, G) without repetition, then the node names of the store the reader builds are distinct, no node lists a phase twice, and every element's phases are known. So C77-C88 apply to whatever is read.", "quantifier": "for all files", "why_tests_cant": "All files.", "anchors": ["src/ditto/readers/gridlabd/read.py:Reader.parse", "src/logic/network/parsers/threephase/threephaseparser.py:ThreePhaseParser"]}
{"id": "C117", "title": "Fuses from the file to the network", "statement": "The fuses of the network are, object by object in file order, one per wire of each fuse object: between the buses of its two ends, with an interior bus, with the stated current limit; and each is GOOD, whatever the file says about blown or open phases.", "quantifier": "for all files with distinct object names and known, unrepeated phases that are read and parsed", "why_tests_cant": "All files; the status is lost between two modules.", "anchors": ["src/ditto/readers/gridlabd/read.py:Reader.parse", "src/logic/network/parsers/threephase/threephaseparser.py:ThreePhaseParser"]}
{"id": "C118", "title": "Switches from the file to the network", "statement": "The switches of the network are, object by object in file order, one per wire of each switch or recloser object whose phase is among its phases, between the buses of its two ends, and open exactly if the file says OPEN for the phase.", "quantifier": "for all files with distinct object names and known, unrepeated phases that are read and parsed", "why_tests_cant": "All files.", "anchors": ["src/ditto/readers/gridlabd/read.py:Reader.parse", "src/logic/network/parsers/threephase/threephaseparser.py:ThreePhaseParser"]}
{"id": "C119", "title": "Regulators from the file to the network", "statement": "A file with a regulator loads only if its configuration says wye-wye and there are exactly three phases. The network then has one regulator per phase between the buses of the stated ends, with the band limits center -/+ width/2, the stated tap position clamped to the stated numbers of taps, a step of 2*regulation/(raise+lower), and the ratio that its type prescribes.", "quantifier": "for all files with distinct object names and known, unrepeated phases that are read and parsed", "why_tests_cant": "All files; two modules and two clampings involved.", "anchors": ["src/ditto/readers/gridlabd/read.py:Reader.parse", "src/logic/network/parsers/threephase/threephaseparser.py:ThreePhaseParser"]}
{"id": "C120", "title": "Transformers from the file to the network", "statement": "A transformer object of the file loads only if it has a configuration. Then the network has, per phase, a unit between the buses of its ends (to the next phase on delta sides) whose turns ratio is the ratio of the stated voltages (times sqrt 3 on delta sides) and whose admittance is the inverse of the stated per-unit impedance on the secondary base; a center tap gives one unit with three interior buses, ratio and three coils from the stated voltages, resistance and reactances.", "quantifier": "for all files with distinct object names and known, unrepeated phases that are read and parsed", "why_tests_cant": "All files; per-unit conversions over two modules.", "anchors": ["src/ditto/readers/gridlabd/read.py:Reader.parse", "src/logic/network/parsers/threephase/transformerparser.py:TransformerParser"]}
{"id": "C121", "title": "A center tap in kV has a third coil a million times too conductive", "statement": "If the configuration of a center-tapped transformer gives its secondary voltage in kV and equal reactances of the two secondary coils, the admittance of the third coil in the network is 10^6 times that of the second.", "quantifier": "for all files with distinct object names and known, unrepeated phases that are read and parsed", "why_tests_cant": "Depends on units in the file; all values.", "anchors": ["src/ditto/readers/gridlabd/read.py:Reader.parse", "src/logic/network/parsers/threephase/transformerparser.py:TransformerParser"]}
{"id": "C122", "title": "Loads from the file to the network", "statement": "The loads of the network are grouped by the load objects of the file in file order; they sit at the buses of the parent, or of the object's own node; and for each phase connection the powers add up to the stated constant powers and ZIP base powers, and the impedances and currents are the stated ones.", "quantifier": "for all files with distinct object names and known, unrepeated phases that are read and parsed", "why_tests_cant": "All files.", "anchors": ["src/ditto/readers/gridlabd/read.py:Reader.parse", "src/logic/network/parsers/threephase/threephaseparser.py:ThreePhaseParser"]}
{"id": "C123", "title": "Capacitors from the file to the network", "statement": "Each capacitor object gives one capacitor per phase that has a stated size and is connected, at the buses of its parent, with susceptance size divided by the square of the nominal voltage, the stated limits, and the switch state and control mode that its control text implies.", "quantifier": "for all files with distinct object names and known, unrepeated phases that are read and parsed", "why_tests_cant": "All files.", "anchors": ["src/ditto/readers/gridlabd/read.py:Reader.parse", "src/logic/network/parsers/threephase/threephaseparser.py:ThreePhaseParser"]}
{"id": "C124", "title": "Lines from the file to the network", "statement": "Each line object gives one line of the network between the stated ends. For overhead and triplex lines the impedance matrix is the Carson/Kron matrix of the stated conductors and spacing times the stated length in metres, the phases are those with conductors, the ampacities are the stated ones, and the stored admittance inverts the impedance up to 1/90000.", "quantifier": "for all files with distinct object names and known, unrepeated phases that are read and parsed", "why_tests_cant": "All files; unit conversions over three modules.", "anchors": ["src/ditto/readers/gridlabd/read.py:Reader.parse", "src/logic/network/parsers/threephase/threephaseparser.py:ThreePhaseParser"]}
{"id": "C125", "title": "Buses from the file to the network", "statement": "Each phase of a node or meter object without parent has its own bus; its nominal voltage is the magnitude of the stated phase voltage, otherwise the nominal voltage (of the last later child, if there is one), and unless a capacitor is attached it starts at the corresponding phasor (phases 1 and 2 at fixed phasors of 120 V). Every other bus of a node comes from a parentless node, meter or load object, no two such buses share name and phase, and all remaining buses are interior.", "quantifier": "for all files with distinct object names and known, unrepeated phases that are read and parsed", "why_tests_cant": "All files.", "anchors": ["src/ditto/readers/gridlabd/read.py:Reader.parse", "src/logic/network/parsers/threephase/threephaseparser.py:ThreePhaseParser"]}
{"id": "C126", "title": "Sources from the file to the network", "statement": "The sources of the network are, in file order, one per phase of each node or meter object whose bustype is SWING, at its bus; if the object has no parent, with the magnitude and angle of its stated voltage.", "quantifier": "for all files with distinct object names and known, unrepeated phases that are read and parsed", "why_tests_cant": "All files.", "anchors": ["src/ditto/readers/gridlabd/read.py:Reader.parse", "src/logic/network/parsers/threephase/threephaseparser.py:ThreePhaseParser"]}
{"id": "C127", "title": "RAW: the fields of a line", "statement": "If the lines of a RAW file are written with commas (or, when the first line has none, blanks) between the fields, fields optionally padded with blanks or in quotation marks, inside which commas may occur and quotation marks are doubled, then reading the lines returns exactly the fields; every field returned is free of white space at both ends.", "quantifier": "for every file and every way of writing its fields", "why_tests_cant": "Quoting, padding and delimiters combine without bound.", "anchors": ["src/logic/network/parsers/raw/Data.py:290-312"]}
{"id": "C128", "title": "RAW: records of one row", "statement": "For each of revisions 30, 32, 33 and 34, a bus, load, fixed shunt, generator, branch or switched shunt row is accepted exactly if every column of the stated layout has a legible entry or may be left empty, and the record has in each attribute the entry of the column of that name or the stated default; a generator row of fewer than 16 columns gives an empty record.", "quantifier": "for every RAW file (list of lines) and every meaning of int() and float()", "why_tests_cant": "Unboundedly many rows; four layouts per record.", "anchors": ["src/logic/network/parsers/raw/Data.py:827-1160", "src/logic/network/parsers/raw/Data.py:1513-1602"]}
{"id": "C129", "title": "RAW: transformer records", "statement": "Four rows are a two-winding transformer exactly if the third field is written 0 and each row has the columns of its layout; five rows are a three-winding transformer exactly if the third field is anything else, even empty, and each row has the columns of its layout. The record has the entries of the named columns or their defaults.", "quantifier": "for every RAW file (list of lines) and every meaning of int() and float()", "why_tests_cant": "Unboundedly many rows; 80 columns per record.", "anchors": ["src/logic/network/parsers/raw/Data.py:1163-1463"]}
{"id": "C130", "title": "RAW: which files are accepted, and as what", "statement": "A RAW file is accepted exactly if it has a heading with a known revision, followed by the sections in the order of that revision, each consisting of comments and well-formed records and closed by a row 0 or a row beginning with 0, blank, slash, up to the last section or a quit row; the case read has, for every table, the last record of each key, sorted by key.", "quantifier": "for every RAW file (list of lines) and every meaning of int() and float()", "why_tests_cant": "The quantifier ranges over whole files.", "anchors": ["src/logic/network/parsers/raw/Data.py:137-143", "src/logic/network/parsers/raw/Data.py:171-253", "src/logic/network/parsers/raw/Data.py:298-770"]}
{"id": "C131", "title": "RAW: the order of records does not matter", "statement": "Two files with the same heading values whose records are a permutation of each other, no two records of a table having the same key, are read as the same case or both rejected.", "quantifier": "for every RAW file (list of lines) and every meaning of int() and float() and every permutation of the records", "why_tests_cant": "Factorially many orders.", "anchors": ["src/logic/network/parsers/raw/Data.py:195-253", "src/logic/network/parsers/raw/Data.py:343-770"]}
{"id": "C132", "title": "RAW: a cut-off file is never misread", "statement": "If a file is accepted, then every file that continues it is accepted and read as the same case: so an initial part of a file is either refused or read like the whole file.", "quantifier": "for every RAW file (list of lines) and every meaning of int() and float() and every continuation", "why_tests_cant": "Unboundedly many files and cut positions.", "anchors": ["src/logic/network/parsers/raw/Data.py:343-770"]}
{"id": "C133", "title": "RAW: the network of a file", "statement": "A file whose heading and records are as stated is loaded exactly if the case of its records satisfies the acceptance conditions of C74, and the network is then the one determined by that case. The bus numbers of a case read from a file are always distinct, and if the file has no bus number twice, the list of slack buses kept apart agrees with the table of the buses.", "quantifier": "for every RAW file (list of lines) and every meaning of int() and float()", "why_tests_cant": "Composition of two parsers over all files.", "anchors": ["src/logic/network/parsers/raw/Data.py", "src/logic/network/parsers/raw/parser.py:62-480"]}
{"id": "C134", "title": "RAW: short generator rows", "statement": "A generator row of fewer than 16 columns is dropped without notice if the file has no complete generator row; next to a complete one it makes reading the file fail with a type error.", "quantifier": "for every RAW file (list of lines) and every meaning of int() and float()", "why_tests_cant": "All files.", "anchors": ["src/logic/network/parsers/raw/Data.py:1024-1060", "src/logic/network/parsers/raw/Data.py:195-218"]}
{"id": "C135", "title": "Cables: shunt admittance", "statement": "For cables with possible measures the shunt matrix is 3 by 3 and diagonal, and its i-th entry is half of j*77.3619e-6 / (ln(Rb/RDc) - (1/k) ln(k RDs/Rb)) siemens per mile for the i-th wire, 0 for a neutral, for missing wires and for strands of diameter 0. The computation succeeds exactly if each wire that is not a neutral is among the first three and has all four measures, with non-zero conductor diameter and strand count and unequal outer and strand diameters. If the conductor lies within the ring and the strands fit, the susceptance is positive.", "quantifier": "for every list of wires and all real measures", "why_tests_cant": "Real-valued measures and unbounded lists; logarithms of quotients.", "anchors": ["src/ditto/readers/gridlabd/line_impedance.py:558-595"]}
{"id": "C136", "title": "Cables: series impedance", "statement": "For cables with concentric neutrals, with or without a separate neutral, at given distances, the reduced matrix satisfies: for all currents in the conductors and neutrals for which the neutrals have zero voltage, the voltage drops computed with the primitive impedances (Carson's equations; equivalent GMR and radius of the ring of strands; distances to neutrals as k-th roots) are the matrix times the conductor currents. The primitive impedances exist, and the matrix is symmetric if the distances are.", "quantifier": "for every number of cables, every distance table and every inversion routine that inverts", "why_tests_cant": "Unboundedly many cables; all current vectors; real-valued data.", "anchors": ["src/ditto/readers/gridlabd/line_impedance.py:644-713", "src/ditto/readers/gridlabd/line_impedance.py:725-833"]}
{"id": "C137", "title": "Overhead lines: shunt admittance", "statement": "For a line with known distances, heights and diameters, the matrix times the voltages that charges q cause (potential coefficients 11.17689 ln(S/D), neutral earthed) is j omega/2 times q. The image distances S are the textbook ones between phases at equal heights and from a phase to the neutral; between phases at unequal heights and from the neutral to a phase they are strictly wrong; with the diameter in inches the self coefficient is off by 11.17689 ln 12. A wire without diameter means no matrix, and missing heights are read as one foot.", "quantifier": "for every list of wires, all real distances, heights and diameters, all charges", "why_tests_cant": "Real-valued geometry; all charge vectors.", "anchors": ["src/ditto/readers/gridlabd/line_impedance.py:482-556"]}
{"id": "C138", "title": "Underground lines: from the file to the store", "statement": "Whatever else is in a GridLAB-D file that is read, an underground line whose configuration names conductors for phases (and possibly a neutral) with outer and strand diameters, strand count, resistances and GMRs, and a spacing giving the non-zero distances of all its wires, becomes one line with these wires and ampacities, whose impedance is the reduction of C136 and whose shunt admittance is that of C135, per metre. The resistance of a conductor object in Ohm/km is converted for the first phase or line that uses it and taken as ohms per mile by all later ones.", "quantifier": "for every list of objects and every position of the line in it", "why_tests_cant": "Unboundedly many files; the state left behind by the objects before the line matters.", "anchors": ["src/ditto/readers/gridlabd/read.py:1078-1290", "src/ditto/readers/gridlabd/line_impedance.py:644-713"]}
{"id": "C139", "title": "Overhead lines: shunt admittance from the file to the store", "statement": "Whatever else is in a GridLAB-D file that is read, an overhead line whose spacing gives the distances of its wires and either all their heights or none becomes one line with the shunt admittance of C137, per metre: the matrix times the voltages that charges q cause is j omega/2 times q. A conductor object without diameter counts as half an inch thick, a spacing without heights as one foot above earth.", "quantifier": "for every list of objects and every position of the line in it", "why_tests_cant": "Unboundedly many files; real-valued geometry; all charge vectors.", "anchors": ["src/ditto/readers/gridlabd/read.py:829-977", "src/ditto/readers/gridlabd/line_impedance.py:482-556"]}
{"id": "C140", "title": "Network loader: where the file comes from and which parser reads it", "statement": "A name of an existing file is loaded from there; otherwise an address beginning with http:// or https:// that answers 200 is stored under its last part in the temporary directory and loaded exactly as that file would be; everything else fails. A name with .glm anywhere in it (directories included) goes to the GridLAB-D parsers, otherwise one with .RAW to the RAW parser, otherwise loading fails; each loads exactly when its parser does, with the same network. A RAW file in a directory called data.glm is therefore silently loaded as an empty three-phase network, and case.raw is refused.", "quantifier": "for every name, file system and remote site", "why_tests_cant": "All names and contents; network access.", "anchors": ["src/logic/network/networkloader.py:pull_network_file", "src/logic/network/networkloader.py:NetworkLoader.from_file"]}
{"id": "C141", "title": "From GridLAB-D text to network", "statement": "Two texts that describe the same legal objects, however they are laid out in rows, blanks, comments, quotes and included files, load to the same result. If the objects have different names and sensible phases, loading succeeds exactly if the reader and the three-phase parser accept the objects with just the described attribute values, and then the fuses, switches, regulators, transformers, loads, capacitors, lines and sources of the network are those of the described objects, one by one in file order.", "quantifier": "for every text in the described grammar, every schema, every number conversion", "why_tests_cant": "Unboundedly many texts; composes reader and parser.", "anchors": ["src/logic/network/networkloader.py:NetworkLoader.from_file", "src/ditto/readers/gridlabd/read.py:read_gld_objects_and_schedules", "src/ditto/readers/gridlabd/read.py:Reader.parse", "src/logic/network/parsers/threephase/threephaseparser.py:ThreePhaseParser"]}
{"id": "C142", "title": "Whole network: the equations are the circuit laws and Kirchhoff's current law", "statement": "In a network whose elements refer to its buses, without infeasibility currents, every row of the assembled system belonging to a bus is the real or imaginary part of the sum of the currents all elements draw from that bus, and the remaining rows, in element order, are exactly the voltage and current laws of the elements (pi model, admittance matrices, ideal transformer with winding impedance, center tap, slack voltage, closed switch, generator magnitude, ZIP load, voltage source, shunt, regulator, fuse, capacitor). Hence a vector solves the system exactly iff its voltages are a possible state of the circuit: every solution in which loads and generators are not at zero voltage is one, every possible state is the voltages of a solution, and rows below a tolerance mean that every law holds up to that tolerance.", "quantifier": "for every network, every vector of unknowns and every choice of complex bus voltages and element currents", "why_tests_cant": "All networks, real-valued voltages; both directions (no spurious and no missing solutions).", "anchors": ["src/logic/network/networkmodel.py", "src/models/components/line.py", "src/models/components/transformer.py", "src/models/components/load.py", "src/models/components/generator.py", "src/models/components/bus.py", "src/logic/stamping/lagrangesegment.py"]}
{"id": "C143", "title": "Whole network: building, residuals, matrix and success of a power flow", "statement": "For a network whose elements refer to its buses, with no phase of an unbalanced line and no inner primary node of a center tapped transformer on the ground, building the matrix stamper never fails. After any sequence of calls, stamping and residuals with a new iteration number at a vector where nothing divides by zero give: residuals, and equally Y v - J of the stamped system, that are the currents left over at the buses followed by how far each law of each element is missed; and a matrix that holds all partial derivatives of the equations. When the homotopy controller reports success, the returned vector has one entry per unknown, and there is a vector u at which every equation is within the tolerance, so that (loads and generators not at zero voltage) the voltages of u obey every circuit law up to the tolerance; the report lists the residuals of u and the returned vector is the linear solver's answer for the system linearised at u. A start vector within the tolerance is accepted at once whatever the linear solver answers, so every state that obeys the circuit laws is accepted from a suitable start. Without the condition on grounded ends building can raise NameError.", "quantifier": "for every network, call history, vector, linear solver, voltage limiter and setting", "why_tests_cant": "All networks and histories; the linear solver is arbitrary; real-valued tolerance.", "anchors": ["src/logic/stamping/matrixstamper.py:123-131", "src/logic/nrsolver.py", "src/logic/homotopycontroller.py", "src/logic/network/networkmodel.py"]}
{"id": "C144", "title": "PowerFlow.execute as a whole", "statement": "The run is refused for islands exactly if the buses that are not virtual are not all connected by lines, transformers, closed switches, sources, regulators, good fuses and capacitors (open ones included). Whenever a result is returned, connected places have nominal voltages within 20 V, no fuse is blown and the network differs from the given one only in switches of capacitors, in nothing at all without device control or for positive sequence networks. A success means: there is a vector u at which every equation of the switched network is within the tolerance, so that (no infeasibility currents, loads and generators not at zero voltage) its voltages obey every circuit law up to the tolerance; the residual report lists the residuals of u, and the returned vector is the linear solver's answer for the system linearised at u. With device control every capacitor in voltage mode is in the circuit if the returned voltage is above its band and out of it if below, and the returned currents through the fuses are within their limits. The run ends after at most 1020 times max_iters linear systems.", "quantifier": "for every network, setting, linear solver, order of neighbours in the graph and state of fuses and capacitors", "why_tests_cant": "All networks; composes graph checks, device control, homotopy, Newton loop, stamper and components; the linear solver is arbitrary.", "anchors": ["src/logic/powerflow.py:14-56", "src/logic/devicecontroller.py", "src/logic/graphanalyzer.py", "src/logic/homotopycontroller.py", "src/logic/nrsolver.py"]}
{"id": "C145", "title": "What the parsers make fits the solver", "statement": "Every network loaded from a GridLAB-D or RAW file satisfies what C142-C144 ask of networks: different bus numbers, elements that refer only to buses of the network, no phase of a line on ground, fuses and capacitors in their lists; for RAW files also that every element ends at the one bus with its number. A three-phase network reaches the solver exactly if each line has a bus for each of its phases at both ends, which the parser does not check. Initial voltages, names, phases, nominal voltages and virtual marks of the buses are those of the parser. Buses inside regulators, fuses and center tapped transformers are joined to nothing else and no two phases of a line meet, if no element refers to a name ending like those of inner buses; a node called X-Fuse beside a fuse that starts at X is replaced by the bus inside the fuse.", "quantifier": "for every file, parser output and element", "why_tests_cant": "All files; an invariant of the parser's output across all element kinds.", "anchors": ["src/logic/network/parsers/threephase/threephaseparser.py:ThreePhaseParser", "src/logic/network/parsers/raw/", "src/logic/network/networkmodel.py", "src/models/components/unbalanced_line.py:48-51", "src/logic/network/networkloader.py"]}
{"id": "C146", "title": "From a file to a result", "statement": "When a file is loaded and solved (no infeasibility currents) and success is reported, then with no further condition on the network: the result has an entry for each unknown and is the linear solver's answer for a system linearised at a vector whose voltages obey every circuit law of the loaded network, with capacitors as switched, up to the tolerance (loads and generators not at zero voltage); with device control and three phases no capacitor has to be switched and all fuse currents are within limits. A RAW file is refused for islands exactly if the network is not in one piece, where buses with equal names count as one, so two unconnected buses of the same name are accepted. The same holds for a GridLAB-D file with plain names, and the run raises exactly if a line lacks a bus.", "quantifier": "for every file, file system, linear solver, setting", "why_tests_cant": "Whole program on all inputs.", "anchors": ["src/run_solver.py", "src/logic/network/networkloader.py", "src/logic/powerflow.py", "src/logic/graphanalyzer.py", "src/logic/network/parsers/raw/"]}
{"id": "C147", "title": "Whole network: infeasibility analysis solves the circuit laws with one more current per bus", "statement": "In a network whose elements refer to its buses, with L1 or L2 infeasibility currents, the rows of the bus multipliers are the currents all elements draw from the bus plus the infeasibility current of that bus, the element laws are rows unchanged, and the remaining rows of the infeasibility currents tie each to the multiplier. So every solution (loads and generators not at zero voltage) gives voltages at which all circuit laws hold once the reported currents are drawn besides, and the current at a bus is -1/2 (L2) or -1 (L1) times the bus multiplier, in both its parts. If the reported currents are zero the voltages solve the plain power flow, and conversely every state of the plain power flow is a solution with zero multipliers and zero currents. Rows below a tolerance mean every law holds up to the tolerance; a run on a file that reports success gives this, and if its currents are at most d the plain power flow is solved up to d more.", "quantifier": "for every network, bus, vector of unknowns, both forms, every file, linear solver and setting", "why_tests_cant": "All networks and vectors, real-valued; relates two differently numbered systems of equations.", "anchors": ["src/models/optimization/L1infeasibility.py", "src/models/optimization/L2infeasibility.py", "src/logic/network/networkmodel.py:71-84", "src/logic/stamping/lagrangesegment.py", "src/models/components/bus.py:76-85", "src/logic/powerflow.py"]}
{"id": "C148", "title": "Whole network: infeasibility analysis finds the least currents", "statement": "In a network without generators and constant power parts of loads (all other elements, lines with symmetric matrices), any solution of the equations with L1 or L2 infeasibility currents has the least total squared current among all currents at the buses with which the circuit laws can be met, and no other currents reach that total. So if the circuit laws can be met without extra currents, every solution has none and is a solution of the power flow, and the L1 form, the L2 form and any numbering report the same currents. With a constant power load this fails for both forms: a feeder that can supply its load has a solution of the equations that reports a current.", "quantifier": "for every such network, every solution of either form and all competing currents and voltages", "why_tests_cant": "Optimality against all alternatives in a real vector space of any dimension; needs the adjoint of every component.", "anchors": ["src/models/optimization/L1infeasibility.py", "src/models/optimization/L2infeasibility.py", "src/logic/stamping/lagrangesegment.py", "src/models/components/load.py", "src/models/components/line.py", "src/logic/network/networkmodel.py:71-84"]}
{"id": "C149", "title": "Schedules of a GridLAB-D text", "statement": "In texts made of objects, schedules, blank rows, comments and other rows, in any order and with included files, the objects are read as if the schedules were not there, and the value of a schedule is that of its first row whose cron expression hits the given time, whatever the layout, unnamed blocks and trailing comments; of several schedules with one name the last that has a value counts, and schedules without one do not appear. A row whose cron expression is refused before any row hits stops the reading with that error. Three layouts are not understood: a named block inside a schedule ends the schedule at the block's closing brace and everything after it is ignored; with the opening brace on a row of its own the schedule never ends, so the rows of all further schedules written so count for the first; and blanks between the semicolon and a comment leave the semicolon in the value.", "quantifier": "for every text in the described grammar, every cron test", "why_tests_cant": "Unboundedly many texts; nested blocks of any depth; the cron test is arbitrary.", "anchors": ["src/ditto/readers/gridlabd/read.py:117-121", "src/ditto/readers/gridlabd/read.py:177-195", "src/ditto/readers/gridlabd/read.py:read_gld_objects_and_schedules"]}
{"id": "C150", "title": "Whole network: power flow without constant power is solved from every start", "statement": "Take a network without generators, constant power parts of loads and center tapped transformers of ratio 0 (all other elements and settings of infeasibility currents allowed) whose equations have exactly one solution, and a linear solver that answers every linear system with exactly one solution exactly (nothing is assumed of it on other systems). Then from every start vector of the right length the Newton solver without voltage limiting succeeds at homotopy factor 0 in its first or second iteration, and the returned vector is the exact solution, not merely within the tolerance; its voltages are the only ones possible in the circuit, and with infeasibility currents (lines with symmetric matrices) they are the least ones. PowerFlow.execute without device control on such a network with good fuses either refuses it for its islands or nominal voltages or returns that solution.", "quantifier": "for every such network, start vector, tolerance > 0, at least 2 iterations, every linear solver exact on regular systems", "why_tests_cant": "Success from all real start vectors for networks of any size.", "anchors": ["src/logic/nrsolver.py", "src/logic/homotopycontroller.py:18-44", "src/logic/powerflow.py:14-56", "src/logic/stamping/matrixstamper.py", "src/logic/stamping/lagrangesegment.py", "src/logic/network/networkmodel.py:71-84"]}
{"id": "C151", "title": "The command as a whole: which circuit is solved and when it is always solved", "statement": "Take a file that loads and whose lines have their buses. Without a load file and artificial swing bus, with a load file that is missing, and for every positive sequence case whatever the time series options say, run_solver reports exactly what one power flow returns (and raises exactly if that raises) on the network of the file in which every load takes the load factor times its constant power, constant currents, impedances, generators and all else unchanged; as the factor is -1 when --load_factor is not given, by default every constant power load feeds its power into the circuit. A reported success (no infeasibility analysis) is the linear solver's answer at a vector whose voltages satisfy the laws of that scaled circuit within 1e-5, and at the reported vector fuses and capacitors are at rest. If no constant power is left (factor 0, or constant current and impedance loads only) and the file has no generators, fuses, capacitors and ratio-0 center taps, and the equations have one solution, then for every solver exact on regular systems the command reports that exact solution after at most two iterations if and only if the graph is accepted; with --infeasibility (symmetric line matrices) it holds the least infeasibility currents.", "quantifier": "for every file and loader world, all options (without --select_island), linear solver, earlier index assignment, order of traversal", "why_tests_cant": "Ranges over all files, options and linear solvers; composition of every layer of the program.", "anchors": ["src/run_solver.py:16-97", "src/logic/network/loadfactor.py:3-6", "src/logic/powerflow.py:14-56", "src/logic/network/networkloader.py", "src/logic/network/timeseriesprocessor.py:236-244"]}
{"id": "C152", "title": "Whole network: the powers of the elements balance", "statement": "In every state of a network that its circuit laws allow, every element takes exactly the complex power of its formula (lines, transformers, fuses, regulators, capacitors and shunts |voltage|^2 times the conjugate of their admittances, matrix lines the quadratic form; ideal parts, switches and center taps nothing beyond their windings; generators minus their active power; loads constant power plus constant current times voltage plus |voltage|^2 over the conjugate impedance), and what slacks, generators and voltage sources supply is what the loads take plus what the other elements lose. Without negative resistances the losses are not negative, so the active power supplied is at least that delivered. With constant power loads the slacks and sources feed the described loads less the described generation plus the losses. The solutions of the assembled equations have all this; with infeasibility analysis the reported currents account for exactly the difference; and a state that meets every equation within eps misses the balance by at most eps times the sum of the bus voltages.", "quantifier": "for every network with buses of its own, all states, all eps", "why_tests_cant": "Ranges over all networks of any size with matrices of any size and over all solutions; a sum over all buses and elements (Tellegen's theorem) that no single component shows.", "anchors": ["src/models/components/line.py", "src/models/components/unbalanced_line.py", "src/models/components/transformer.py", "src/models/components/center_tap_transformer.py", "src/models/components/load.py", "src/models/components/generator.py", "src/models/components/slack.py", "src/models/components/regulator.py", "src/models/components/fuse.py", "src/models/components/capacitor.py", "src/models/components/shunt.py", "src/logic/network/networkmodel.py:71-84", "src/logic/stamping/matrixstamper.py"]}
{"id": "C153", "title": "Result files say what was computed", "statement": "Of a successful result the voltage file, split at line ends and commas, is the header, then one row per bus that is not interior, in order, with its number, name:phase, magnitude and angle in degrees (0 below 1e-8 V), then an empty line or the remark on violated ratings; the power file is the header, the generators, slacks and infeasibility currents in order with bus number, kind, P and Q, then the loads with the name of their node, then the same last line. Every number is shown rounded to 3 (voltages) or 2 digits after the point: at most half a unit away, even last digit in the middle, a minus sign exactly if negative. This needs names without commas and line ends, which are not quoted. A failed result gives files that hold only FAILURE. Writing changes these two files only, and the files of the hours of a time series do not overwrite each other.", "quantifier": "for every result, all names without separators, all real values, all paths, all sets of hours", "why_tests_cant": "All real values and texts of any length; that tables are read back uniquely is a statement about all texts.", "anchors": ["src/logic/powerflowresults.py:34-36", "src/logic/powerflowresults.py:43-73", "src/logic/powerflowresults.py:88-90", "src/logic/powerflowresults.py:118-187", "src/logic/powerflowresults.py:251-305", "src/logic/network/timeseriesprocessor.py:216-221"]}
{"id": "C154", "title": "From the case file to the result files", "statement": "With --outputfile x and one power flow (no load file, a missing one, or a positive sequence case), run_solver writes exactly x_voltage.csv and x_power.csv, and writes nothing if the power flow raises or no path is given. After a success the voltage file has, in the order of the case, one line for each bus that is not interior, with its number, its name and phase, and the rounded magnitude and angle of the voltage of that bus in the solution; the power file has one line for each generator, slack and infeasibility current and then one for each load with the name of the bus it hangs on and the load factor times the constant power of the case (so by default minus that power). After a failure both say FAILURE. For circuits without constant power, generators and devices whose equations have one solution, the voltage file shows the rounded voltages of every state the circuit laws admit. A time series that is reported leaves the two files of each hour of the range and touches no other file. A series in which an hour raises leaves the files of the hours before it, and then, as x_voltage.csv and x_power.csv, the files of one more power flow on the loads as that hour left them.", "quantifier": "for every file and loader world, all options, linear solvers, bus names without separators, paths, earlier contents of the disk", "why_tests_cant": "Composition of reader, network, solver, time series and output for all files; the claim that nothing else is written quantifies over all file names.", "anchors": ["src/run_solver.py:61-97", "src/logic/powerflowresults.py:92-187", "src/logic/powerflowresults.py:251-283", "src/logic/network/timeseriesprocessor.py:209-244", "src/logic/powerflow.py:14-56"]}
{"id": "C155", "title": "The numbers of the power file add up to the losses", "statement": "In the power file a generator's row holds the complex power it takes, and a slack's row holds Re V * Re I and Im V * Im I: the sum of its two columns is the active power it takes. So the P column of the generators, the P and Q columns of the slacks and the powers of the loads add up to minus the losses of lines, transformers and other branches in every exact solution, and miss this by at most eps times the sum of the bus voltages where every equation holds within eps. Losses are not negative without negative resistances. With all slacks at angle 0 the Q column of the slacks is 0 and the P column itself adds up; with a slack at another angle (phases B and C of every three-phase case) it does not: an example has a P column by which a passive network takes more than it is given. For a whole run of the command with constant power loads the decimals read from the written file add up to minus the losses within half a hundredth per number, besides eps times the voltages.", "quantifier": "for every network without infeasibility currents, all solutions, all eps; for every file, options and linear solver whose run reports a success", "why_tests_cant": "A sum over all rows of files of any length, for all solutions of all networks, with the rounding of all real numbers.", "anchors": ["src/logic/powerflowresults.py:138-157", "src/logic/powerflowresults.py:34-36", "src/logic/powerflowresults.py:251-283", "src/models/components/slack.py:59-63", "src/models/components/generator.py:54-77", "src/run_solver.py:61-97"]}
{"id": "C156", "title": "The circuit that is solved is the one the parsers read", "statement": "The laws of the circuit are stated a second time, on the records that the parsers make and without the solver's network: for every line the buses of each phase at the two places it names, the admittance matrix and half of the shunt matrix at each end; for transformers, centre-tapped transformers, regulators, fuses, switches, slacks, loads and capacitors their own laws; for RAW files the laws by the bus numbers of the file, with the generators' and loads' powers as the parser keeps them. Voltages obey the laws of the solver's network exactly when they obey these, and within any tolerance likewise. So no element is lost, doubled, turned round or moved between parser and solver, except the magnetising branches of transformers, which are read and not simulated. A run on a RAW file that reports a success ended with a step from voltages that obey the file's laws within the tolerance. Initial voltages and powers, nominal voltages, names and the settings of fuses and capacitors are those of the parser.", "quantifier": "for every three-phase network whose lines find their buses, every RAW file that is read, all voltages and tolerances; every run and linear solver", "why_tests_cant": "An equivalence over all networks and all complex voltages; a test compares a few solved cases with another program.", "anchors": ["src/models/components/unbalanced_line.py", "src/models/components/transformer.py:94-158", "src/models/components/center_tap_transformer.py", "src/models/components/regulator.py", "src/models/components/fuse.py", "src/models/components/load.py", "src/models/components/slack.py", "src/models/components/generator.py", "src/models/components/shunt.py", "src/logic/network/networkloader.py", "src/logic/powerflow.py"]}
{"id": "C157", "title": "A reported success in the terms of the file", "statement": "If the command without --infeasibility reports a success on a GridLAB-D file, then there is a copy of what the parser read - all loads with their constant power times the load factor (-1 if none is given), capacitors with their switches in some position, all else the same - whose laws hold within 1/100000 at the voltages from which the last linear system was solved; the k-th bus of the file has its voltage at 2k and 2k+1 of the vector. At the reported voltages themselves every capacitor of the copy is closed above its band and open below it, and with the currents that belong to these voltages every fuse carries at most its limit. For a RAW file the same holds by its bus numbers. If the file is linear (no generators, fuses or capacitors and no constant power left) and its equations have one solution, the reported voltages are the only ones that obey the laws of the file, and obey them exactly.", "quantifier": "for every file, every option without a load series, every linear solver that answers in the right size (for the exact part: that solves regular systems)", "why_tests_cant": "Connects text, parser, assembly, iteration and devices for all inputs; tests compare a few cases within percent.", "anchors": ["src/run_solver.py:61-97", "src/logic/network/networkloader.py", "src/logic/network/loadfactor.py", "src/logic/powerflow.py", "src/logic/nrsolver.py", "src/logic/devicecontroller.py", "src/logic/homotopycontroller.py"]}
{"id": "C158", "title": "A spacing with two places serves only the conductors it places", "statement": "If a line spacing gives one distance only, between the conductors p and q, it is accepted exactly for lines whose conductors are among p and q. If it also gives the heights of both above ground, it is accepted exactly if moreover the heights differ by no more than the distance (or the line has no conductors). So a file in which an overhead line has another conductor, or impossible heights, is never read.", "quantifier": "for every spacing object whose distances are numbers, every list of conductors, every pair of places; for every file with distinct object names", "why_tests_cant": "Acceptance depends on which of ten distances are given and on the conductors of another object; a test fixes one pair.", "anchors": ["src/ditto/readers/gridlabd/line_impedance.py:45-131", "src/ditto/readers/gridlabd/read.py:830-935"]}
{"id": "C159", "title": "Which nominal voltages and which settings a power flow looks at", "statement": "A power flow is started only if the nominal voltages of places differ by at most 20 along every chain of neighbours of one voltage level, where transformers, center tap transformers and regulators, and nothing else, end a level; it is not refused for voltages that agree within 9.5. On a three-phase network voltage limiting and the flat start have no effect on the result at all, and on a network in single-phase equivalent device control has none.", "quantifier": "for every network, every behaviour of the linear solver, every pair of settings and every order in which sets are visited", "why_tests_cant": "A test cannot run all networks, and that a setting has no effect is a statement about pairs of runs.", "anchors": ["src/logic/powerflow.py:14-56", "src/logic/graphanalyzer.py:24-84", "src/logic/network/networkmodel.py:125-152"]}
{"id": "C160", "title": "Options of the command line that change nothing", "statement": "If there is nothing to simulate over time (no load file and no artificial swing bus, or a load file that is missing, or a positive sequence case), command lines that agree in the case, --debug, --infeasibility, --tx_stepping and the load factor do exactly the same, where no load factor is the factor -1. Over a load file, an artificial swing bus without negative loads and negative loads without a swing bus are both without effect. If the last hour is not after the first, as when --loadend is not given, nothing is solved and no result is reported.", "quantifier": "for every file, every pair of command lines, every linear solver, every behaviour of later power flows", "why_tests_cant": "That options have no effect is a statement about pairs of runs over all files; tests compare a run with stored numbers.", "anchors": ["src/run_solver.py:16-97", "src/logic/network/timeseriesprocessor.py:20-26", "src/logic/network/timeseriesprocessor.py:209-244", "src/logic/network/timeseriessettings.py"]}
{"id": "C161", "title": "Selecting an island of a network from a file", "statement": "For every three-phase model list that parses and whose elements and loads do not refer to buses inside elements by name, --select_island at the place of a bus outside elements succeeds. Of the buses outside elements exactly those stay that can be reached over elements that are not open switches or blown fuses. Sources stay with their bus, loads and fuses exactly when both their ends are reached, lines unless some of their phases lead to a place outside. No capacitor stays, and no load between a phase and ground, even if they belong to the selected island: if every load of the file is on a single phase, no load is left. Any other place ends in an exception.", "quantifier": "for every list of GridLAB-D models of any length that parses, every matrix inverse, every bus chosen", "why_tests_cant": "Removal order, reachability and inner buses interact over networks of any shape; tests run one feeder.", "anchors": ["src/logic/network/timeseriesprocessor.py:28-123", "src/logic/network/networkmodel.py:125-152", "src/logic/graphanalyzer.py:24-84"]}
{"id": "C162", "title": "Rows of sources and infeasibility currents in the results", "statement": "In the results of every power flow on a loaded file, the row of a slack carries the number of its bus in the list of voltages and uses the voltages shown there, there is one row per slack and generator in their order, and with infeasibility analysis one row per bus in the order of the buses. The P and Q shown for an infeasibility current are the products of the real and of the imaginary parts of the bus voltage and of the current drawn at the bus besides the elements; the L1 analysis turns the sign, and powers below 0.00001 are shown as 0. So a shortage at a bus with positive voltage, which has to be fed in, is shown by L1 and shown as 0 by L2.", "quantifier": "for every file, every analysis, every result vector, every list of loads and device states", "why_tests_cant": "A test looks at one case; that L2 reports zero for a shortage can only be seen against the equations.", "anchors": ["src/logic/powerflowresults.py:118-187", "src/models/optimization/L1infeasibility.py:34-75", "src/models/optimization/L2infeasibility.py:33-58"]}
