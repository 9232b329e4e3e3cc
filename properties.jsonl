{"id": "C01", "title": "Splitting a cycle into microtrips and concatenating them gives the cycle back", "statement": "For any cycle, concat(to_microtrips(cycle, stop_speed)) reproduces every speed, grade and road-type sample in order, and every time stamp less the cycle's first time stamp; so a cycle that starts at time 0 comes back unchanged, and one that does not comes back shifted to 0.", "quantifier": "every cycle (any length, any sample values, any first time stamp) and every stop speed", "why_tests_cant": "The repo's test round-trips one standard cycle with integer time stamps starting at 0; the claim is about every split pattern (leading idle, single samples, cycles that start moving, never stop, or are empty).", "anchors": ["python/fastsim/cycle.py:to_microtrips", "python/fastsim/cycle.py:concat"]}
{"id": "C02", "title": "A microtrip is one start-to-stop segment", "statement": "Every microtrip returned by to_microtrips starts at time 0; every microtrip after the first starts with a stopped sample followed by a moving one, that stopped sample being the last sample of the microtrip before it; and no microtrip contains a stopped-to-moving transition after its first sample. No microtrip is empty.", "quantifier": "every cycle and stop speed, every microtrip and every pair of adjacent samples in it", "why_tests_cant": "Needs an invariant over the whole scan; any test sees only some of the stop/start patterns.", "anchors": ["python/fastsim/cycle.py:to_microtrips"]}
{"id": "C03", "title": "Concatenating cycles keeps every sample once and adds up the time", "statement": "concat(cycles) has sum(len) - (k-1) samples; it contains all samples of the first cycle and all but the first sample of each later one, with later time stamps offset by the end time of what precedes them, so its end time is the sum of the cycles' end times. Grouping does not matter: concat([concat(a), ...b]) equals concat(a ++ b). Increasing time stamps stay increasing when every later cycle's times are positive after its first sample. An empty first cycle followed by another is rejected (IndexError).", "quantifier": "every list of cycles of any number and length", "why_tests_cant": "Length, offset and associativity laws range over every list of cycles.", "anchors": ["python/fastsim/cycle.py:concat"]}
{"id": "C04", "title": "Clipping keeps exactly the samples in the time window", "statement": "clip_by_times(cycle, t_end, t_start) keeps, in order, exactly the samples whose time is in [t_start, t_end] (both ends included) in every array of the cycle, leaves non-array entries alone, and rebases time so that the first kept sample is at 0; if no sample is in the window the call fails with IndexError.", "quantifier": "every cycle, every pair of window ends (also empty and reversed windows)", "why_tests_cant": "Boundary inclusion and the empty window need all windows, not chosen ones.", "anchors": ["python/fastsim/cycle.py:clip_by_times"]}
{"id": "C05", "title": "Cutting a cycle at a sample and concatenating the halves is lossless", "statement": "If t is the time of one of the samples of a cycle with strictly increasing times, concat([clip up to t, clip from t]) is the original cycle rebased to start at 0.", "quantifier": "every strictly increasing cycle and every sample time in it", "why_tests_cant": "Needs both halves to share exactly the boundary sample for every cut position.", "anchors": ["python/fastsim/cycle.py:clip_by_times", "python/fastsim/cycle.py:concat"]}
{"id": "C06", "title": "Resampled values stay in the range of the original and agree with it at original sample times", "statement": "resample(cycle, new_dt) without rate keys produces times start + k*new_dt covering the cycle, and every resampled value is between two adjacent original values, hence within the original minimum and maximum (speeds stay nonnegative); a new time that coincides with an original one gets exactly the original value. Keys in hold_keys get an original value, never a blend.", "quantifier": "every cycle with increasing times, every positive new_dt, every interval", "why_tests_cant": "Interpolation must be right between every pair of samples for every step size.", "anchors": ["python/fastsim/cycle.py:resample"]}
{"id": "C07", "title": "Resampling with speed as a rate key preserves distance", "statement": "resample(cycle, new_dt, rate_keys={'mps'}) yields speeds whose trapezoidal distance over the new times equals the trapezoidal distance of the original cycle up to the last new time (clamped to its end).", "quantifier": "every cycle with increasing times from 0 and every positive new_dt giving at least one step", "why_tests_cant": "Distance preservation is a telescoping identity over arbitrarily many, arbitrarily aligned steps; the repo checks a few step sizes to a tolerance.", "anchors": ["python/fastsim/cycle.py:resample"]}
{"id": "C08", "title": "Distance book-keeping is additive and monotone", "statement": "trapz_step_start_distance(c, i) is the sum of the trapezoidal step distances before step i; adding trapz_distance_for_step(c, i) gives the start distance of step i+1; trapz_distance_over_range(c, i, j) is the difference of the start distances at j and i for 1 <= i <= j; these distances never decrease when speeds are nonnegative and times nondecreasing.", "quantifier": "every cycle and all indices", "why_tests_cant": "Off-by-one errors between these views only show at particular indices.", "anchors": ["python/fastsim/cycle.py:trapz_step_distances", "python/fastsim/cycle.py:trapz_step_start_distance", "python/fastsim/cycle.py:trapz_distance_for_step", "python/fastsim/cycle.py:trapz_distance_over_range", "python/fastsim/cycle.py:average_step_speeds"]}
{"id": "C09", "title": "The two views of step duration agree", "statement": "Cycle.dt_s[i] equals Cycle.dt_s_at_i(i) for every i >= 1, and for i = 0 exactly when the cycle starts at time 0 (dt_s[0] is the first time stamp while dt_s_at_i(0) is 0); the entries of dt_s add up to the last time stamp.", "quantifier": "every cycle and index", "why_tests_cant": "A test on cycles that start at 0 cannot see the disagreement at index 0.", "anchors": ["python/fastsim/cycle.py:Cycle.dt_s", "python/fastsim/cycle.py:Cycle.dt_s_at_i"]}
{"id": "C10", "title": "Distance to the next stop", "statement": "calc_distance_to_next_stop_from(d) is the distance from d to the first stopped sample whose cumulative distance is strictly beyond d, whether or not a cache is passed; if there is none it returns -d (cumulative distance of the first sample minus d), which is never positive for d >= 0.", "quantifier": "every nonempty cycle, every distance, with or without the cache", "why_tests_cant": "All cycles, positions and both code paths; a wrong stop only shows for some positions.", "anchors": ["python/fastsim/cycle.py:Cycle.calc_distance_to_next_stop_from", "python/fastsim/cycle.py:CycleCache"]}
{"id": "C11", "title": "Passing a CycleCache never changes an answer", "statement": "average_grade_over_range gives the same answer with and without its cache whenever it averages (delta distance above the 1e-6 threshold). For point look-ups (delta at or below the threshold) the two agree whenever consecutive samples are at different distances; they can disagree when the cycle stops, where the cached look-up can return the grade of a stopped sample instead of the grade of the road segment that contains the point.", "quantifier": "every cycle with nonnegative speeds and nondecreasing times, every query", "why_tests_cant": "The defect needs a stop followed by a graded segment and a query inside that segment; random tests of standard cycles have constant grade at stops.", "anchors": ["python/fastsim/cycle.py:Cycle.average_grade_over_range", "python/fastsim/cycle.py:CycleCache.interp_grade", "python/fastsim/cycle.py:CycleCache.interp_elevation"]}
{"id": "C12", "title": "Average grade on a constant-grade road is that grade", "statement": "If every sample has grade g, average_grade_over_range(d, delta) = g for every range of positive length inside the cycle's travelled distance, and 0 for a cycle whose grades are all 0 wherever the range is.", "quantifier": "every grade value, cycle and in-range query", "why_tests_cant": "Passes through tan/arcsin/cos/arctan; a test only checks a tolerance at chosen grades.", "anchors": ["python/fastsim/cycle.py:Cycle.average_grade_over_range", "python/fastsim/cycle.py:Cycle.delta_elev_m"]}
{"id": "C13", "title": "A constant-jerk trajectory reaches its rendezvous", "statement": "With (k, a0) from calc_constant_jerk_trajectory(n, D0, v0, Dr, vr, dt), speed_for_constant_jerk(n, ...) = vr and dist_for_constant_jerk(n, ...) = Dr whenever dt is not (n+4)/3 (where the code divides by zero; never for dt = 1). For dt = 1 stepping the acceleration of accel_for_constant_jerk reproduces speed_for_constant_jerk and the trapezoidal distance of those speeds is dist_for_constant_jerk at every step; for other dt it is not.", "quantifier": "every n > 1, all start and target states, every dt", "why_tests_cant": "An algebraic identity in six variables; the repo only tests dt = 1.", "anchors": ["python/fastsim/cycle.py:calc_constant_jerk_trajectory", "python/fastsim/cycle.py:speed_for_constant_jerk", "python/fastsim/cycle.py:dist_for_constant_jerk", "python/fastsim/cycle.py:accel_for_constant_jerk", "python/fastsim/cycle.py:Cycle.modify_by_const_jerk_trajectory"]}
{"id": "C14", "title": "Trajectory edits are local, nonnegative, and braking ends at rest", "statement": "modify_by_const_jerk_trajectory(i, n, ...) changes only the speeds at i .. i+n-1 (clipped to the cycle), never the times, grades or road types, and every speed it writes is >= 0; modify_with_braking_trajectory returns a step count n of at least 2 and leaves the vehicle at speed 0 at sample i+n-1 when the plan fits the cycle, changes nothing if i is past the end, and rejects a non-negative braking rate.", "quantifier": "every cycle, index, plan length and dynamics", "why_tests_cant": "Locality is a claim about all the samples not touched.", "anchors": ["python/fastsim/cycle.py:Cycle.modify_by_const_jerk_trajectory", "python/fastsim/cycle.py:Cycle.modify_with_braking_trajectory"]}
{"id": "C15", "title": "Passing detection reports exactly the first overtake", "statement": "detect_passing(cyc, cyc0, i, tol) reports a collision at idx iff idx > i is the first sample in range at which cyc is ahead of cyc0 by more than tol with neither of the early-exit stop conditions met before it (the collision flag further needs cyc0, at that sample, to be beyond the position of cyc at sample i); when it reports none, every sample up to the early exit is within tol; and the reported gaps and speeds are those of that sample.", "quantifier": "every pair of cycles, start index and tolerance", "why_tests_cant": "First-ness is a claim about all earlier samples.", "anchors": ["python/fastsim/cycle.py:detect_passing"]}
{"id": "C16", "title": "Extending a cycle only appends idle time", "statement": "extend_cycle(c, absolute_time_s, time_fraction) keeps all samples of c and appends only zero-speed zero-grade samples spaced 1 s apart; the number appended is fixed by the requested extra time, so the extension is never shorter than the whole seconds requested; the name of the cycle is not kept.", "quantifier": "every nonempty cycle and nonnegative request", "why_tests_cant": "All durations, including fractional ones and zero.", "anchors": ["python/fastsim/cycle.py:extend_cycle"]}
{"id": "C17", "title": "The microtrip target-speed table covers the trip in order", "statement": "create_dist_and_target_speeds_by_microtrip returns (distance, speed) pairs whose distances start at 0 and strictly increase, one per microtrip of positive length, each distance being the total length of the microtrips before it, and every target speed is at least min_target_speed.", "quantifier": "every cycle with nonnegative speeds, all blend factors and minimum speeds", "why_tests_cant": "Ordering and completeness range over all microtrips of all cycles.", "anchors": ["python/fastsim/cycle.py:create_dist_and_target_speeds_by_microtrip"]}
{"id": "C18", "title": "Cycle dictionaries and copies round-trip", "statement": "Cycle.from_dict(c.to_dict()) is c, copy_cycle(c) as cycle is equal to c, and the old<->new key renaming is a bijection so legacy dictionaries convert back and forth without loss; missing grade, road type and name are filled with zeros/empty, make_cycle rejects unequal lengths with an AssertionError (from_dict does not check them). Asking copy_cycle for a legacy cycle never succeeds (AttributeError).", "quantifier": "every cycle", "why_tests_cant": "A conversion may lose a field only for particular contents.", "anchors": ["python/fastsim/cycle.py:Cycle.from_dict", "python/fastsim/cycle.py:Cycle.to_dict", "python/fastsim/cycle.py:copy_cycle", "python/fastsim/cycle.py:LegacyCycle", "python/fastsim/cycle.py:NEW_TO_OLD"]}
{"id": "C19", "title": "Cycle equality means equal content", "statement": "equals(c1, c2) is true iff both have the same keys and equal arrays under each of them; it is reflexive, symmetric and transitive, ignores key order, and cyc_equal of a cycle and its copy is true.", "quantifier": "every pair and triple of cycles (no NaN entries)", "why_tests_cant": "Equivalence-relation laws quantify over all triples.", "anchors": ["python/fastsim/cycle.py:equals", "python/fastsim/cycle.py:cyc_equal"]}
{"id": "C20", "title": "Road load is the sum of its physical parts and braking balances it", "statement": "At every simulated step, without trace-miss correction, drag, acceleration, ascent, rolling and tire-inertia power are the physical formulas at the mean achieved speed and the slope of the step, and the wheel power requirement is their sum; drag and rolling power, friction-brake and regenerative-brake power are nonnegative; requested transmission output = wheel power + friction brake power, so a decelerating vehicle's negative wheel power is split between regeneration and friction and regeneration never exceeds the motor limit or the share the controller asks for. With trace-miss correction the powers of a re-solved step can be those of a speed that was not driven (refuted there).", "quantifier": "every vehicle, cycle, step and prior state", "why_tests_cant": "Power balance must hold at every step of every run.", "anchors": ["python/fastsim/simdrive.py:SimDrive.set_power_calcs"]}
{"id": "C21", "title": "Engine/fuel-cell power stays within its published limits", "statement": "At every step 0 <= fc_kw_out_ach <= cur_max_fc_kw_out <= fc_max_kw, and fc_kw_out_ach never rises faster than fc_max_kw / fc_sec_to_peak_pwr per second over the previous step; with no engine (fc_max_kw = 0) fuel power is 0 throughout.", "quantifier": "every vehicle with nonnegative limits and positive ramp times, every cycle with positive step durations, every step", "why_tests_cant": "An invariant of the whole walk: the limit at step i depends on the achieved power at i-1.", "anchors": ["python/fastsim/simdrive.py:SimDrive.set_comp_lims", "python/fastsim/simdrive.py:SimDrive.set_fc_power"]}
{"id": "C22", "title": "No component creates energy", "statement": "At every step the transmission, motor, battery and fuel converter losses are nonnegative (input >= output in the direction of flow) as long as their efficiencies lie in (0, 1]; an efficiency map entry of 0, which set_derived accepts, makes fuel power 0 while engine output is positive.", "quantifier": "every vehicle with efficiencies in range, every cycle and step", "why_tests_cant": "Must hold in every operating mode (driving, regenerating, charging from the engine, idle).", "anchors": ["python/fastsim/simdrive.py:SimDrive.set_ach_speed", "python/fastsim/simdrive.py:SimDrive.set_hybrid_cont_decisions", "python/fastsim/simdrive.py:SimDrive.set_fc_power", "python/fastsim/vehicle.py:Vehicle.set_derived"]}
{"id": "C23", "title": "Efficiency look-ups use the map point at or below the operating power", "statement": "The fuel-converter efficiency used at a step is the map's value at the last grid power not above the achieved output (last point at or above maximum power); the motor look-ups use the point below the power, the last point at the top of the map, and never the zero-efficiency entry at zero power.", "quantifier": "every increasing map and every power level", "why_tests_cant": "The look-up relies on argmax(...)-1 wrapping to the last entry; boundaries are measure-zero for random tests.", "anchors": ["python/fastsim/simdrive.py:SimDrive.set_fc_power", "python/fastsim/simdrive.py:SimDrive.set_hybrid_cont_decisions"]}
{"id": "C24", "title": "State of charge is exactly the integral of battery power", "statement": "At every step the change of stored energy is -(P/sqrt(eta)) dt when discharging and -(P*sqrt(eta)) dt when charging, soc = stored energy / capacity, and over a whole walk the start-to-end difference is the sum of the per-step discharge and loss terms; with no electric system stored energy is 0.", "quantifier": "every vehicle with a battery, every walk", "why_tests_cant": "Drift would only show as an accumulated error over long histories.", "anchors": ["python/fastsim/simdrive.py:SimDrive.set_hybrid_cont_decisions"]}
{"id": "C25", "title": "Battery power within its published limits keeps SOC inside the window", "statement": "If at a step the achieved battery power lies between minus the charge limit and the discharge limit published for that step and the previous SOC was inside [min_soc, max_soc], so is the new SOC; the limits themselves are never negative and never exceed ess_max_kw.", "quantifier": "every vehicle with a battery, every step duration and SOC in the window", "why_tests_cant": "The limits are computed from round-trip efficiency and step length; any mismatch shows only at the window's edge.", "anchors": ["python/fastsim/simdrive.py:SimDrive.set_comp_lims", "python/fastsim/simdrive.py:SimDrive.set_hybrid_cont_decisions"]}
{"id": "C26", "title": "The SOC window is not enforced against auxiliary load", "statement": "'SOC never leaves [min_soc, max_soc]' is FALSE: a standing electric vehicle draws its auxiliary load from the battery whatever its SOC, so SOC falls below min_soc, and over a long stop below zero.", "quantifier": "some vehicle and cycle", "why_tests_cant": "Needs a depleted battery, a corner no regression test visits.", "anchors": ["python/fastsim/simdrive.py:SimDrive.set_comp_lims", "python/fastsim/simdrive.py:SimDrive.set_hybrid_cont_decisions"]}
{"id": "C27", "title": "Traction and transmission limits", "statement": "cyc_trac_kw_req is met iff the requested transmission output is at most the published limit; achieved transmission output never exceeds that limit; transmission output and input have the same sign.", "quantifier": "every vehicle, step and state", "why_tests_cant": "Needs every branch of the limit calculations.", "anchors": ["python/fastsim/simdrive.py:SimDrive.set_comp_lims", "python/fastsim/simdrive.py:SimDrive.set_power_calcs", "python/fastsim/simdrive.py:SimDrive.set_ach_speed"]}
{"id": "C28", "title": "Achieved speed", "statement": "At every step achieved speed is nonnegative; it equals the prescribed speed whenever the power request is within limits on first evaluation, and otherwise is the best iterate of a Newton search that performs at most newton_max_iter iterations.", "quantifier": "every vehicle, cycle with nonnegative speeds, and step", "why_tests_cant": "Convergence of Newton is data dependent; termination and sign must hold regardless.", "anchors": ["python/fastsim/simdrive.py:SimDrive.set_ach_speed"]}
{"id": "C29", "title": "cyc_met can be true although the trace was missed", "statement": "cyc_met[i] implies mps_ach[i] = cyc.mps[i] is FALSE: after the speed search the power calculation is repeated at the reduced speed and overwrites the flag; only a step that needed no search is guaranteed to be on the trace.", "quantifier": "some vehicle and cycle", "why_tests_cant": "The flag is right in every run that meets its trace.", "anchors": ["python/fastsim/simdrive.py:SimDrive.set_power_calcs", "python/fastsim/simdrive.py:SimDrive.set_ach_speed"]}
{"id": "C30", "title": "The energy audit closes", "statement": "For every completed run of a vehicle with an electric system (or with no battery capacity) the audit's energy difference (fuel + battery + roadway + kinetic minus all losses and loads) equals exactly the sum over steps of duration times the step's power imbalances plus the change in tire rotational energy, minus entry 0 of an auxiliary-load override times the first time stamp; so a run whose steps balance and which starts and ends at the same speed audits to exactly zero. For a vehicle without electric system but with a battery capacity the claim is FALSE: it is credited with a full battery discharge and a balanced run audits with a warning.", "quantifier": "every run of any length", "why_tests_cant": "A whole-run identity over all accumulated arrays; tests check a tolerance on standard cycles.", "anchors": ["python/fastsim/simdrive.py:SimDrive.set_post_scalars"]}
{"id": "C31", "title": "Conventional vehicles use no electricity and electric vehicles no fuel", "statement": "With ess_max_kw = mc_max_kw = 0 all battery and motor powers are 0 at every step; with fc_max_kw = 0 engine and fuel power are 0 at every step and mpgge is reported as 0.", "quantifier": "every such vehicle, every cycle", "why_tests_cant": "Must hold in every branch of the hybrid control.", "anchors": ["python/fastsim/simdrive.py:SimDrive.set_hybrid_cont_decisions", "python/fastsim/simdrive.py:SimDrive.set_fc_power", "python/fastsim/simdrive.py:SimDrive.set_post_scalars"]}
{"id": "C32", "title": "Auxiliary-load override", "statement": "With an override array of the cycle's length, the auxiliary load used at step i is override[i] if any entry from i on is nonzero and the vehicle's default load otherwise; an override whose last entry is nonzero is used as given and left unchanged. An override with trailing zeros is not honoured there and the caller's array is overwritten.", "quantifier": "every override array and vehicle", "why_tests_cant": "Depends on all later entries of the array; aliasing shows only after the run.", "anchors": ["python/fastsim/simdrive.py:SimDrive.set_misc_calcs", "python/fastsim/simdrive.py:SimDrive.sim_drive_walk"]}
{"id": "C33", "title": "The hybrid charge-balance loop terminates", "statement": "sim_drive performs at most sim_count_max + 1 walks and returns, whatever the vehicle does; and the walk it reports starts from the final SOC of a walk that was balanced or that was number sim_count_max. It does not guarantee that the reported walk itself is balanced.", "quantifier": "every possible response of the vehicle to its initial SOC", "why_tests_cant": "Non-convergence is data dependent.", "anchors": ["python/fastsim/simdrive.py:SimDrive.sim_drive"]}
{"id": "C34", "title": "Initial SOC is validated before anything changes", "statement": "For every vehicle except conventional ones, an initial SOC outside [min_soc, max_soc] raises ValueError and leaves the simulation untouched; a conventional vehicle starts at its mid-window SOC.", "quantifier": "every vehicle and initial SOC", "why_tests_cant": "Boundary values and error atomicity.", "anchors": ["python/fastsim/simdrive.py:SimDrive.init_for_step", "python/fastsim/simdrive.py:SimDrive.sim_drive"]}
{"id": "C35", "title": "Runs are repeatable and leave the user's cycle alone", "statement": "Running sim_drive_walk twice with the same settings gives identical results, and neither the original cycle (cyc0) nor the caller's cycle is ever modified by a run. If a cycle-changing option (trace-miss correction, IDM, coasting) is on for one run and off for the next, the second run uses the modified cycle.", "quantifier": "every vehicle, cycle and settings", "why_tests_cant": "History dependence needs two runs with different settings.", "anchors": ["python/fastsim/simdrive.py:SimDrive.init_for_step", "python/fastsim/simdrive.py:SimDrive.sim_drive_walk"]}
{"id": "C36", "title": "Stepping by hand equals walking", "statement": "init_for_step followed by sim_drive_step until the end yields the same state as the loop of sim_drive_walk, and the step counter ends at the cycle length.", "quantifier": "every cycle length and vehicle", "why_tests_cant": "Holds for all lengths by induction.", "anchors": ["python/fastsim/simdrive.py:SimDrive.sim_drive_step", "python/fastsim/simdrive.py:SimDrive.sim_drive_walk"]}
{"id": "C37", "title": "Time dilation keeps time moving forward and terminates", "statement": "set_time_dilation runs at most max(2, max_trace_miss_iters) correction steps, changes no time stamp before step i, shifts all later ones equally, and keeps times strictly increasing if min_time_dilation > -1. It does not bound the total stretch of a step by max_time_dilation, because each iteration stretches the already stretched step.", "quantifier": "every cycle, step and vehicle response", "why_tests_cant": "The iteration depends on the vehicle response; the compounding only shows after two iterations.", "anchors": ["python/fastsim/simdrive.py:SimDrive.set_time_dilation"]}
{"id": "C38", "title": "Collision prevention terminates", "statement": "_prevent_collisions recurses a bounded number of times because each retry widens the passing tolerance until it reaches its cap, whatever trajectories are produced.", "quantifier": "every cycle and vehicle state", "why_tests_cant": "Termination of a data-dependent recursion.", "anchors": ["python/fastsim/simdrive.py:SimDrive._prevent_collisions"]}
{"id": "C39", "title": "Coasting applies no traction", "statement": "While impose_coast is set for a step the transmission limit is 0, so achieved transmission output is at most 0 and the vehicle is never driven forward.", "quantifier": "every vehicle and state", "why_tests_cant": "Must hold in every limit branch.", "anchors": ["python/fastsim/simdrive.py:SimDrive.set_comp_lims", "python/fastsim/simdrive.py:SimDrive.set_power_calcs"]}
{"id": "C40", "title": "Car-following speed is safe to use", "statement": "The speed chosen by the car-following model is never negative, is 0 when the desired speed is not positive, and never exceeds the previous speed plus maximum acceleration times the step; the desired speed is the entry of the target table with the greatest distance not beyond the current position.", "quantifier": "all speeds, gaps (also zero and negative) and parameters", "why_tests_cant": "Singular gaps and table boundaries.", "anchors": ["python/fastsim/simdrive.py:SimDrive._next_speed_by_idm", "python/fastsim/simdrive.py:SimDrive._set_speed_for_target_gap_using_idm", "python/fastsim/simdrive.py:SimDrive._set_speed_for_target_gap"]}
{"id": "C41", "title": "Diagnostics split each channel without loss", "statement": "For every kW channel the positive and negative energies reported by get_diagnostics are the integrals of the positive and negative parts, so positive + negative equals the plain integral over the cycle, the first being >= 0 and the second <= 0.", "quantifier": "every channel, any values, any time stamps", "why_tests_cant": "Range over all signals.", "anchors": ["python/fastsim/simdrive.py:SimDrivePost.get_diagnostics"]}
{"id": "C42", "title": "Battery-wear tallies", "statement": "'set_battery_wear accumulates the energy added over consecutive charging steps, and repeating the call changes nothing' is FALSE: each entry of the first call is just the increment of its own step, and calling it again gives different results because it feeds on its own output; only as many calls as steps reach the accumulated tally. Depth of discharge and life used follow from these entries.", "quantifier": "some run", "why_tests_cant": "Needs two consecutive charging steps and a repeated call.", "anchors": ["python/fastsim/simdrive.py:SimDrivePost.set_battery_wear"]}
{"id": "C43", "title": "SOC correction of fuel use has the right sign", "statement": "estimate_soc_corrected_fuel_kJ returns the plain fuel energy when SOC is unchanged, less when the battery gained charge, more when it lost charge, and rejects vehicles that are not hybrids. For fuel-cell hybrids the claim is FALSE: when the cell covers the whole electric load the battery share is a division by zero and the result is NaN or infinite.", "quantifier": "every engine-hybrid run with positive efficiencies and a step on which the engine drives", "why_tests_cant": "Sign conventions across branches.", "anchors": ["python/fastsim/simdrive.py:estimate_soc_corrected_fuel_kJ"]}
{"id": "C44", "title": "Deriving vehicle parameters is checked and repeatable", "statement": "set_derived rejects conventional vehicles without stop-start that have a motor or battery and electric vehicles with an engine or fuel tank (template vehicles excepted), requires efficiencies in [0,1), sets no_elec_sys/no_elec_aux consistently with component sizes, tabulates the engine map at 100 and the motor map at 101 powers by linear interpolation, and keeps every supplied parameter. Without a motor peak override calling it again changes nothing; with one the electric powers change at the second call. After a change of mc_max_kw the motor map of the first derivation stays in use. A valid motor map whose peak is not at a full percent of rated power is refused.", "quantifier": "every vehicle parameter set", "why_tests_cant": "Idempotence and validation range over all parameter sets.", "anchors": ["python/fastsim/vehicle.py:Vehicle.set_derived"]}
{"id": "C45", "title": "Vehicle mass is the sum of its parts unless overridden", "statement": "set_veh_mass gives the override when it is positive and otherwise the sum of glider, cargo, transmission and component masses; it is idempotent, component masses scale with component size and vanish when the component has zero size, and maximum traction does not depend on mass.", "quantifier": "every vehicle parameter set", "why_tests_cant": "All combinations of present and absent components.", "anchors": ["python/fastsim/vehicle.py:Vehicle.set_veh_mass"]}
{"id": "C46", "title": "Peak-efficiency overrides", "statement": "After setting the engine (motor) peak efficiency to p, reading it back gives p and every entry of the working table is scaled by the same factor. In a vehicle without peak-efficiency overrides the engine setting is lost at the next set_derived because the map it is rebuilt from is left unscaled; the motor setting survives set_derived, but until then the table of electric powers still belongs to the old efficiencies. In a vehicle with a peak-efficiency override, set_derived puts the peak back to the override.", "quantifier": "every positive map and peak value", "why_tests_cant": "The loss shows only after re-deriving.", "anchors": ["python/fastsim/vehicle.py:Vehicle.set_fcPeakEff", "python/fastsim/vehicle.py:Vehicle.set_mcPeakEff"]}
{"id": "C47", "title": "Copying a vehicle", "statement": "copy_vehicle(veh) preserves every parameter that is not an efficiency map or its power grid (and the effective mass override). Maps of the copy are always the default maps of the vehicle's engine type and motor size, whatever the vehicle's own are: without peak overrides the copy equals the original iff the original already uses default maps; a vehicle with an engine type of its own cannot be copied; with a motor peak override the copy's derived electric powers differ.", "quantifier": "every vehicle object made by the library", "why_tests_cant": "The test copies a vehicle with default maps.", "anchors": ["python/fastsim/vehicle.py:copy_vehicle", "python/fastsim/vehicle.py:Vehicle.from_dict"]}
{"id": "C48", "title": "Vehicle comparison", "statement": "veh_equal is true exactly if all settings other than the mass override agree and the maps agree to within 1e-6; it is reflexive and symmetric for derived vehicles and consistent with the full_out list of differences. Vehicles that differ only in mass override compare equal, the tolerance makes it non-transitive, maps of different sizes raise ValueError (or are broadcast if one has a single entry), and before the motor map is derived it is not symmetric.", "quantifier": "every pair and triple of vehicles", "why_tests_cant": "Requires a pair that differs in exactly the neglected field.", "anchors": ["python/fastsim/vehicle.py:veh_equal"]}
{"id": "C49", "title": "Label combined economy lies between city and highway", "statement": "Combined miles per gallon are the 55/45 harmonic mean of city and highway values and combined battery energy the 55/45 mean, for unadjusted and adjusted values and every powertrain, so they lie between the two. For conventional and hybrid vehicles the unadjusted values are miles per gallon of the two runs and adjusted values follow the published coefficients of the model year. For electric vehicles adjusted consumption follows the same rule capped at 10/7, wall energy is battery energy over 0.86, and range times combined consumption is the battery capacity. A vehicle without a plug that uses no fuel on one of the cycles raises ZeroDivisionError.", "quantifier": "all vehicles, model years and pairs of cycles for which the label is computed", "why_tests_cant": "Inequality over all positive reals.", "anchors": ["python/fastsim/simdrivelabel.py:get_label_fe"]}
{"id": "C50", "title": "Label output keys", "statement": "get_label_fe's result for vehicles without a charge-depleting mode contains the documented keys except netRangeMiles and adjCombEssKwhPerMile, which are missing because two adjacent literals are joined into one bogus key.", "quantifier": "every non-plug-in vehicle", "why_tests_cant": "A key that is never read by a test can be missing unnoticed.", "anchors": ["python/fastsim/simdrivelabel.py:get_label_fe"]}
{"id": "C51", "title": "Suppressed logging is restored", "statement": "suppress_logging restores the fastsim logger level on normal and exceptional exit for every standard level; with a non-standard level it raises AssertionError on exit and leaves logging off, and it overwrites the core logger's own level with fastsim's.", "quantifier": "every pair of logger levels, normal and exceptional exits, nested use", "why_tests_cant": "All levels and nestings.", "anchors": ["python/fastsim/utils/utilities.py:suppress_logging", "python/fastsim/utils/utilities.py:set_log_level", "python/fastsim/utils/utilities.py:enable_logging", "python/fastsim/utils/utilities.py:disable_logging"]}
{"id": "C52", "title": "Dotted-path access obeys the lens laws", "statement": "Reading back a path just set gives the value; setting what is already there changes nothing; the second of two sets wins; and sets at disjoint paths do not affect each other; set_attrs_with_path applies them in order; a missing attribute is an error.", "quantifier": "every nested object, path and value", "why_tests_cant": "Laws over all trees and paths.", "anchors": ["python/fastsim/utils/utilities.py:get_attr_with_path", "python/fastsim/utils/utilities.py:set_attr_with_path", "python/fastsim/utils/utilities.py:set_attrs_with_path"]}
{"id": "C53", "title": "Coast-down coefficients and drag parameters convert back and forth", "statement": "drag_coeffs_to_abc followed by abc_to_drag_coeffs (without optimisation) gives back the same drag coefficient and rolling coefficient; in the other direction the A and C terms survive and the B term is dropped.", "quantifier": "every vehicle mass, frontal area and air density > 0", "why_tests_cant": "Unit conversions compose exactly for all values.", "anchors": ["python/fastsim/auxiliaries.py:abc_to_drag_coeffs", "python/fastsim/auxiliaries.py:drag_coeffs_to_abc"]}
{"id": "C54", "title": "Unit conversions are mutually inverse", "statement": "mpg -> l/100km -> mpg is the identity on nonzero values and the product of the two is constant; zero is refused with ZeroDivisionError; setting a cycle's mph and reading it back is the identity; setting and reading the fuel's lower heating value is the identity and changes nothing but the energy per gallon.", "quantifier": "all values", "why_tests_cant": "Identities over all reals.", "anchors": ["python/fastsim/utils/utilities.py:mpg_to_l__100km", "python/fastsim/utils/utilities.py:l__100km_to_mpg", "python/fastsim/cycle.py:Cycle.set_mph", "python/fastsim/cycle.py:Cycle.get_mph", "python/fastsim/parameters.py:PhysicalProperties"]}
{"id": "C55", "title": "Calibration error metric", "statement": "get_error_val(model, test, time) is nonnegative, zero when the signals coincide, symmetric in model and test, and scales with the magnitude of the difference; unequal lengths are rejected.", "quantifier": "every pair of signals and every increasing time vector", "why_tests_cant": "Metric laws over all signals.", "anchors": ["python/fastsim/calibration.py:get_error_val"]}
{"id": "C56", "title": "Power balances on the electric and the mechanical bus", "statement": "At every step battery output = motor electrical input + auxiliary load when auxiliaries are electric (fuel-cell vehicles: minus fuel-cell output), and engine output = transmission input - motor output (+ auxiliary load when it is on the engine shaft), cut off at 0 and at the engine limit; roadway charging power is 0.", "quantifier": "every vehicle and step", "why_tests_cant": "It is a relation between channels at every step of every run; tests compare a few runs with recorded numbers.", "anchors": ["python/fastsim/simdrive.py:SimDrive.set_hybrid_cont_decisions", "python/fastsim/simdrive.py:SimDrive.set_fc_power"]}
{"id": "C57", "title": "When a hybrid drives on its battery alone", "statement": "The engine is off and the motor carries the whole transmission input exactly when the controller's published conditions hold: SOC above the acceleration buffer, battery and motor can cover the demand, speed and demand below the engine-on thresholds, and the engine not held on by its minimum on-time.", "quantifier": "every vehicle and step", "why_tests_cant": "It is a relation between channels at every step of every run; tests compare a few runs with recorded numbers.", "anchors": ["python/fastsim/simdrive.py:SimDrive.set_hybrid_cont_calcs", "python/fastsim/simdrive.py:SimDrive.set_fc_ess_calcs", "python/fastsim/simdrive.py:SimDrive.set_hybrid_cont_decisions"]}
{"id": "C58", "title": "Minimum engine on-time", "statement": "The engine is held on exactly while it has been running for less than min_fc_time_on minus the step; the on-timer is reset to 0 when the engine is off and advances by the step duration while it runs; while held on, the engine works in one of five defined states.", "quantifier": "every vehicle and step", "why_tests_cant": "It is a relation between channels at every step of every run; tests compare a few runs with recorded numbers.", "anchors": ["python/fastsim/simdrive.py:SimDrive.set_fc_forced_state", "python/fastsim/simdrive.py:SimDrive.set_hybrid_cont_decisions"]}
{"id": "C59", "title": "SOC buffers", "statement": "The acceleration and regeneration set points lie in the SOC window and are the documented kinetic-energy reserves; the buffer charge and discharge powers are what brings SOC to the set point within the step, limited by the battery.", "quantifier": "every vehicle and step", "why_tests_cant": "It is a relation between channels at every step of every run; tests compare a few runs with recorded numbers.", "anchors": ["python/fastsim/simdrive.py:SimDrive.set_hybrid_cont_calcs", "python/fastsim/simdrive.py:SimDrive.set_ach_speed"]}
{"id": "C60", "title": "Published component limits", "statement": "At every step the motor limits published for the step are the look-ups and minima of battery, map, ramp and rating; motor output limit lies in [-mc_max_kw, mc_max_kw] and the fuel-store limit within fs_max_kw and its ramp.", "quantifier": "every vehicle and step", "why_tests_cant": "It is a relation between channels at every step of every run; tests compare a few runs with recorded numbers.", "anchors": ["python/fastsim/simdrive.py:SimDrive.set_comp_lims"]}
{"id": "C61", "title": "Planned battery and motor power", "statement": "The battery power planned for engine operation lies within the battery's published limits, is the buffer power or the power toward the engine's best point as the controller documents, and the planned motor shaft power is that power through the motor map, never larger than the electrical power.", "quantifier": "every vehicle and step", "why_tests_cant": "It is a relation between channels at every step of every run; tests compare a few runs with recorded numbers.", "anchors": ["python/fastsim/simdrive.py:SimDrive.set_fc_ess_calcs", "python/fastsim/simdrive.py:SimDrive.set_hybrid_cont_calcs", "python/fastsim/simdrive.py:SimDrive.set_power_calcs"]}
{"id": "C62", "title": "Which power the motor delivers", "statement": "The motor's mechanical power is: 0 without a motor; the forced-state power while the engine is held on; the whole transmission input in all-electric driving; otherwise the larger of what the engine needs as help and what was planned; when braking, regeneration limited by the motor.", "quantifier": "every vehicle and step", "why_tests_cant": "It is a relation between channels at every step of every run; tests compare a few runs with recorded numbers.", "anchors": ["python/fastsim/simdrive.py:SimDrive.set_hybrid_cont_decisions", "python/fastsim/simdrive.py:SimDrive.set_power_calcs"]}
{"id": "C63", "title": "Battery protection latch", "statement": "Battery protection (high-accessory mode) switches on when SOC is below min_soc, stays on until SOC reaches min_soc + perc_high_acc_buf, and is off at the start of each run.", "quantifier": "every vehicle and step", "why_tests_cant": "It is a relation between channels at every step of every run; tests compare a few runs with recorded numbers.", "anchors": ["python/fastsim/simdrive.py:SimDrive.set_misc_calcs"]}
{"id": "C64", "title": "Traction power has a source", "statement": "'Transmission input power is covered by engine and motor output' is FALSE: when electric supply is short of the auxiliary load, the shortfall is added to the transmission limit, and an empty electric vehicle drives off with engine and motor both delivering 0 kW.", "quantifier": "some vehicle and cycle", "why_tests_cant": "It is a relation between channels at every step of every run; tests compare a few runs with recorded numbers.", "anchors": ["python/fastsim/simdrive.py:SimDrive.set_comp_lims"]}
{"id": "C65", "title": "Recharging from nothing", "statement": "'A standing vehicle without roadway charging cannot gain charge' is FALSE: below min_soc an electric vehicle moves its auxiliaries to the (absent) engine shaft, makes the transmission limit negative and regenerates from it, so its SOC rises at every step, also standing still.", "quantifier": "every electric vehicle below min_soc", "why_tests_cant": "It is a relation between channels at every step of every run; tests compare a few runs with recorded numbers.", "anchors": ["python/fastsim/simdrive.py:SimDrive.set_comp_lims", "python/fastsim/simdrive.py:SimDrive.set_power_calcs", "python/fastsim/simdrive.py:SimDrive.set_hybrid_cont_decisions"]}
{"id": "C66", "title": "Trace-miss report", "statement": "After a run the reported speed miss is the largest |achieved - driven trace| over all samples, the distance miss is |driven - given distance| / given distance (0 for a trace that does not move), the time miss is the relative difference of the end times, and the trace-miss flag is raised exactly when speed miss, or time miss (with trace-miss correction) or distance miss (without it), exceeds its tolerance. 'The speed miss compares with the trace the user gave' is FALSE with coasting or car following: it is then always 0.", "quantifier": "every completed run", "why_tests_cant": "A relation over all samples of every run.", "anchors": ["python/fastsim/simdrive.py:SimDrive.set_post_scalars"]}
{"id": "C67", "title": "Reported consumption figures", "statement": "mpgge is the distance driven in miles divided by fuel energy in gallons (0 without fuel use); fuel_kj is the integral of fuel power and agrees with the summed fs_kwh; battery and electric kWh per mile are the net battery discharge per mile (0 when not moving); ess2fuel is the ratio of battery to fuel energy (1 without fuel); the cumulative fuel array is the running integral in MJ.", "quantifier": "every completed run", "why_tests_cant": "Exact identities for all vehicles and cycles.", "anchors": ["python/fastsim/simdrive.py:SimDrive.set_post_scalars"]}
{"id": "C68", "title": "Gap to the vehicle ahead", "statement": "gap_to_lead_vehicle_m at each sample is the distance covered by the given trace minus the distance covered by the driven trace, plus the minimum gap when car following is on.", "quantifier": "every completed run, every sample", "why_tests_cant": "Whole-history relation of two traces.", "anchors": ["python/fastsim/simdrive.py:SimDrive.gap_to_lead_vehicle_m"]}
{"id": "C69", "title": "Air density", "statement": "get_rho_air is the ideal-gas density at the standard-atmosphere pressure: positive, decreasing in temperature and in elevation, and inversely proportional to absolute temperature.", "quantifier": "every temperature above absolute zero and elevation below 44.397 km", "why_tests_cant": "Monotonicity over a continuum.", "anchors": ["python/fastsim/utils/utilities.py:get_rho_air"]}
{"id": "C70", "title": "Snake case", "statement": "camel_to_snake gives lower-case text with the letters of the input, with an underscore before exactly those capitals that follow a lower-case letter or digit or precede a lower-case letter; it is idempotent and leaves lower-case names alone.", "quantifier": "every text", "why_tests_cant": "The two regular expressions interact on arbitrary texts.", "anchors": ["python/fastsim/utils/utilities.py:camel_to_snake"]}
{"id": "C71", "title": "Rolling average is unusable", "statement": "rollav never returns a value: every call raises.", "quantifier": "all inputs", "why_tests_cant": "A function without a test can fail on all inputs.", "anchors": ["python/fastsim/utils/utilities.py:rollav"]}
{"id": "C72", "title": "Tyre radius from the size code", "statement": "calculate_tire_radius gives rim radius plus side-wall height in the unit asked for, for every well-formed code with one optional letter in front; codes with two letters (LT, ST), codes without slash and unknown units are refused; a code without rim diameter is not.", "quantifier": "every code text and unit", "why_tests_cant": "All texts against a backtracking pattern.", "anchors": ["python/fastsim/utils/utilities.py:calculate_tire_radius"]}
{"id": "C73", "title": "Resampling a table", "statement": "resample keeps running totals of rate columns and reads state columns off the lines between the samples at 0, dt, 2dt, ... up to the last time; hold columns are dropped; the first value of a rate column is always 0, so a constant rate does not stay constant.", "quantifier": "every table with increasing times, every step", "why_tests_cant": "All tables and steps.", "anchors": ["python/fastsim/resample.py:resample"]}
{"id": "C74", "title": "Physical properties: comparison and copy", "statement": "physical_properties_equal is true exactly when all five values agree; a copy has the values of the original; the defaults are the documented ones.", "quantifier": "all property sets", "why_tests_cant": "All pairs.", "anchors": ["python/fastsim/parameters.py:copy_physical_properties", "python/fastsim/parameters.py:physical_properties_equal", "python/fastsim/parameters.py:PhysicalProperties"]}
{"id": "C75", "title": "A run starts from fresh arrays", "statement": "What is written into the time-step arrays before sim_drive (e.g. impose_coast) has no effect on its results.", "quantifier": "every simulation object, every content of its arrays, every option", "why_tests_cant": "All array contents.", "anchors": ["python/fastsim/simdrive.py:SimDrive.sim_drive", "python/fastsim/simdrive.py:SimDrive.init_arrays"]}
{"id": "C76", "title": "Utility factor", "statement": "The utility factor of a distance is the table's entry for the greatest listed distance up to it: defined exactly from 0 to 1201 miles (ValueError outside), between 0 and 1, nondecreasing, zero exactly below one mile. The label reports that of the combined charge-depleting distance for plug-in hybrids and 0 for other vehicles.", "quantifier": "all distances; all labels", "why_tests_cant": "A claim about every real distance; tests sample a few labels.", "anchors": ["python/fastsim/simdrivelabel.py:get_label_fe", "python/fastsim/resources/longparams.json:ufArray"]}
{"id": "C77", "title": "Plug-in hybrid label", "statement": "A plug-in hybrid's label is computed from three new runs per cycle (full battery, last partial cycle, nearly empty battery), independent of earlier runs. Unadjusted fuel and battery energy per mile are the utility-factor weighted shares of whole battery cycles, the cycle in which the battery runs out and fuel-only driving, so mileage is at least that on fuel alone and battery energy per mile at most that on the battery; adjusted values use the same weighting with adjusted consumption and a charge-depleting distance between 70 % and 100 % of the unadjusted one. It is defined for every range up to 1201 miles except that a whole number of cycles raises ValueError and a range below one cycle gives nan.", "quantifier": "all plug-in hybrids, cycles and model years", "why_tests_cant": "Closed forms over all run results; the failing whole-number case has measure zero among tests.", "anchors": ["python/fastsim/simdrivelabel.py:get_label_fe"]}
{"id": "C78", "title": "Label acceleration time", "statement": "The acceleration entry comes from a new full-power run sampled every 0.1 s: 1000 if the vehicle never reaches 60 mph, and otherwise, for nondecreasing speeds that pass 60, the unique crossing of the broken line through the speeds.", "quantifier": "all vehicles whose label is computed", "why_tests_cant": "Quantifies over all vehicles.", "anchors": ["python/fastsim/simdrivelabel.py:get_label_fe", "python/fastsim/simdrive.py:run_simdrive_for_accel_test"]}
{"id": "C79", "title": "Vehicle from a dict", "statement": "Vehicle.from_dict takes over every value that has its parameter's type; a parameter that is missing (other than the optional ones) or unknown is an error; a missing year is read from four leading digits of the name, else 0; peak efficiencies outside (0, 1) are dropped silently; a mass override counts only if positive; defaults of the optional parameters are the documented ones. Maps given as readable text are used, maps given as lists or arrays are replaced by the default ones; motor grids must have 11 points. The dict passed in is changed, and used again gives the same settings but default maps.", "quantifier": "every dict, and every reading of texts by Python", "why_tests_cant": "Tests load a handful of database vehicles, once each, with default maps.", "anchors": ["python/fastsim/vehicle.py:Vehicle.from_dict", "python/fastsim/vehicle.py:Vehicle.__post_init__", "python/fastsim/vehicle_base.py:keys_and_types"]}
{"id": "C80", "title": "Reading table cells", "statement": "A cell with a percent sign is the number without the sign divided by 100 if that is a number, and otherwise the text unchanged; else a text that contains the word true (false) in any case is that truth value, a number is that number, and anything else stays text; cells that are not text are read from their printed form. Hence a vehicle name that contains one of the words is lost.", "quantifier": "all cells", "why_tests_cant": "A classification of all texts.", "anchors": ["python/fastsim/vehicle.py:clean_data"]}
{"id": "C81", "title": "Vehicle from a table row", "statement": "Old (camelCase) and new column headings, with spaces or underscores, give the same vehicle; any other heading is refused; the last column for a parameter decides, read as a cell and then as in from_dict, so percentages arrive as fractions.", "quantifier": "all tables", "why_tests_cant": "Quantifies over all choices of headings.", "anchors": ["python/fastsim/vehicle.py:Vehicle.from_df", "python/fastsim/vehicle_base.py:NEW_TO_OLD"]}
{"id": "C82", "title": "Gap to the lead vehicle before, during and after a run", "statement": "Also before, during and after edits of a run, gap_to_lead_vehicle_m has one entry per sample, which is the distance that the original cycle has covered minus the distance that the driven cycle has covered (both by the trapezoid rule), plus the minimum gap if the intelligent driver model is on.", "quantifier": "every simulation object with cycles of equal length, whatever has been simulated of it, every sample", "why_tests_cant": "Quantifies over all cycles.", "anchors": ["python/fastsim/simdrive.py:SimDrive.gap_to_lead_vehicle_m"]}
{"id": "C83", "title": "Eco-cruise", "statement": "activate_eco_cruise turns the intelligent driver model on and changes nothing else of the settings but its desired speed: to the mean speed of the original cycle (0 if that lasts no time), or to the microtrip table; an extension replaces both cycles by the extended one; bad blend factors, minimum speeds or extensions are refused; vehicle and results are kept.", "quantifier": "every run and all arguments", "why_tests_cant": "Tests look at one drive with one set of arguments.", "anchors": ["python/fastsim/simdrive.py:SimDrive.activate_eco_cruise"]}
{"id": "C84", "title": "Law of coasting", "statement": "The change of speed per metre used for coasting is the one at which mass times acceleration equals minus the sum of weight along the road, rolling resistance and drag; a coasting step changes the speed by that slope times the distance covered at the mean of both speeds.", "quantifier": "all vehicles, speeds, grades, step durations", "why_tests_cant": "A law over all reals.", "anchors": ["python/fastsim/simdrive.py:SimDrive._calc_dvdd", "python/fastsim/simdrive.py:SimDrive._generate_coast_trajectory"]}
{"id": "C85", "title": "Distance to stop by coasting", "statement": "On a road of one grade that slows the vehicle down, the estimated distance to stop is exactly the distance of the physical motion: rolling against weight, rolling resistance and drag to the speed for braking and then braking to rest (such a motion exists); at or below that speed it is the braking distance; elsewhere a coast is simulated; zero brake acceleration is an error.", "quantifier": "all vehicles, grades, speeds and all solutions of the equations of motion", "why_tests_cant": "A statement about solutions of a differential equation.", "anchors": ["python/fastsim/simdrive.py:SimDrive._calc_distance_to_stop_coast_v2"]}
{"id": "C86", "title": "Decision to coast", "statement": "With a coast start speed set, coasting starts at the steps whose cycle speed is at least that; otherwise exactly if the vehicle is at or above the speed for braking, the estimated distance to stop is not negative and reaches the next stop of the original cycle, and that stop is at least four braking distances away.", "quantifier": "every run and step", "why_tests_cant": "An equivalence over all states.", "anchors": ["python/fastsim/simdrive.py:SimDrive._should_impose_coast"]}
{"id": "C87", "title": "Planned coast", "statement": "A planned coast consists of speeds that follow the law of coasting step by step down to the speed for braking or until braking is due, then of a braking to rest; it ends at the next stop if the braking stays between half and twice the normal distance; with steps of one second the speeds written cover exactly that distance and end at rest; the flags mark exactly those steps and nothing else changes. Planning never fails on a road of one grade with steps of one second. At or below the speed for braking, it brakes at once.", "quantifier": "every run and step, cycles of any length", "why_tests_cant": "Quantifies over all coasts.", "anchors": ["python/fastsim/simdrive.py:SimDrive._generate_coast_trajectory", "python/fastsim/cycle.py:Cycle.modify_with_braking_trajectory"]}
{"id": "C88", "title": "Correcting a coast", "statement": "A coast that is off its plan is corrected by the constant-jerk trajectory that reaches the speed for braking exactly one braking distance before the next stop; among all that qualify (within the horizon, jerk not negative, accelerations within limits) the one with the least change of acceleration, and none only if none qualifies; with steps of one second the corrected coast stops within 1e-6 m of the stop.", "quantifier": "every run and step", "why_tests_cant": "Optimality over all trajectories.", "anchors": ["python/fastsim/simdrive.py:SimDrive._calc_next_rendezvous_trajectory", "python/fastsim/simdrive.py:SimDrive._set_coast_speed"]}
{"id": "C89", "title": "Trace after a coast", "statement": "When a coast has stopped more than 0.1 m away from the original vehicle, from then on the original trace is followed from its stop nearest to the place reached (of equally near ones the last if the vehicle is behind, the first if it is ahead): continued from there if the vehicle is late, waited for if it is early.", "quantifier": "every run and step", "why_tests_cant": "Quantifies over all traces and stops.", "anchors": ["python/fastsim/simdrive.py:SimDrive._set_coast_delay", "python/fastsim/simdrive.py:SimDrive._set_coast_speed"]}
{"id": "C90", "title": "Step of a coast", "statement": "Outside coasts the speed is that of the (delayed) trace, or left to the intelligent driver model; a coasting step adopts the speed that the vehicle reaches for the planned speed (capped by the greatest coasting speed); at standstill the coast ends; a speed other than planned leads to a correction and the step is solved again; afterwards cycle and achieved speed agree.", "quantifier": "every run and step", "why_tests_cant": "All outcomes of a step.", "anchors": ["python/fastsim/simdrive.py:SimDrive._set_coast_speed"]}
{"id": "C91", "title": "Collision avoidance", "statement": "Tolerances of 1, 10, 15, ... 60 m are tried in turn; the first at which the original vehicle is not passed, or at which an avoiding trajectory exists, decides. The trajectory taken brakes fully for as few steps as possible (at most three) and then moves with constant jerk so that it meets the place and speed of the lead vehicle where it would have passed it, never accelerating more than planned, with the least change of acceleration; with steps of one second the edited cycle is exactly there at that speed. Without a change the run is untouched.", "quantifier": "every run, step and lead vehicle", "why_tests_cant": "Optimality over all trajectories.", "anchors": ["python/fastsim/simdrive.py:SimDrive._prevent_collisions", "python/fastsim/cycle.py:detect_passing"]}
{"id": "C92", "title": "Engine power of best efficiency", "statement": "The power that a vehicle reports as that of its engine's best efficiency is a power of its efficiency map, times its greatest power, at which no other entry of the map has a higher efficiency (the first such entry); after deriving the parameters it belongs to the map in use.", "quantifier": "every efficiency map", "why_tests_cant": "Optimality over all maps.", "anchors": ["python/fastsim/vehicle.py:Vehicle.max_fc_eff_kw", "python/fastsim/vehicle.py:Vehicle.set_derived"]}
{"id": "C93", "title": "Roadway charging", "statement": "Roadway charging never exceeds what the road offers, and what it gives is part of the electric balance. (False with a fuel cell: there the greater of demand and offer is booked.)", "quantifier": "every run, step and offered power", "why_tests_cant": "All demands and offers; no test sets an offered power.", "anchors": ["python/fastsim/simdrive.py:SimDrive.set_hybrid_cont_decisions"]}
{"id": "C94", "title": "Settings objects", "statement": "A fresh settings object has the documented defaults; one read from a dict has for every setting the value given last, or else the default; a copy has the same value for each setting and compares equal; two objects compare equal exactly if all settings have equal values; an object that lacks a setting can be neither copied nor compared. A misspelled name is accepted without notice and changes nothing.", "quantifier": "all dicts and settings objects", "why_tests_cant": "All dicts, all settings, all values.", "anchors": ["python/fastsim/simdrive.py:SimDriveParams", "python/fastsim/simdrive.py:SimDriveParams.from_dict", "python/fastsim/simdrive.py:copy_sim_params", "python/fastsim/simdrive.py:sim_params_equal"]}
{"id": "C95", "title": "Copies and comparisons of runs", "statement": "Two runs compare equal exactly if their vehicles do and their cycles, settings, constants, arrays and counters are the same. A copy takes over everything but the vehicle, for which it uses a copy; if the vehicle has the default maps the copy compares equal and simulates alike. (False in general: the copy of a run with a measured engine map simulates another vehicle, and runs that compare equal may give different results.)", "quantifier": "all runs", "why_tests_cant": "All vehicles, cycles and settings.", "anchors": ["python/fastsim/simdrive.py:copy_sim_drive", "python/fastsim/simdrive.py:sim_drive_equal"]}
{"id": "C96", "title": "Errors of models against test data", "statement": "For every trip of the test data the result has, under the trip's key and each objective's path, the error of the simulated signal against the named column, computed after running the simulation anew; the call succeeds exactly if all of these can be had. (Tables and simulations are paired by position, so with the same keys in another order right models get errors; objectives without a column leave no entry, and make the call fail if they come first.)", "quantifier": "all models, tables, objectives and simulations", "why_tests_cant": "All numbers of trips and objectives, all orders of keys, all failing look-ups.", "anchors": ["python/fastsim/calibration.py:ModelObjectives.get_errors", "python/fastsim/calibration.py:get_error_val"]}
{"id": "C97", "title": "Calibration parameters and results", "statement": "Before an evaluation every model is read anew, gets the value of each parameter (the last if a parameter is listed twice) and its derived values; wrong numbers of values, bounds or tables are rejected. If all objectives name columns the evaluation gives as many values as the optimiser expects, each stands in the column of its trip and objective, and the last column is the root of the sum of their squares. (With an objective that names no column there are too few values and the table cannot be made; bounds in the wrong order are not noticed.)", "quantifier": "all models, parameters and values", "why_tests_cant": "All numbers of trips, objectives and parameters.", "anchors": ["python/fastsim/calibration.py:ModelObjectives.update_params", "python/fastsim/calibration.py:CalibrationProblem", "python/fastsim/calibration.py:run_minimize"]}
{"id": "C98", "title": "Vehicle tables by year", "statement": "Sorting the vehicle table by year loses and repeats no vehicle: the file of a year has the header and exactly that year's rows in their order; emissions go to exactly the years that have a vehicle with their id. If a row lacks its year or id nothing is written.", "quantifier": "all tables", "why_tests_cant": "All tables, orders, repeated ids and headers with blanks.", "anchors": ["python/fastsim/utils/vehicle_import_preproc.py:sort_fueleconomygov_data_by_year", "python/fastsim/utils/vehicle_import_preproc.py:process_csv", "python/fastsim/utils/vehicle_import_preproc.py:write_csvs_for_each_year"]}
{"id": "C99", "title": "Test files and archives by year", "statement": "A test file is for the year from 1971 to 2070 that ends in the two digits its name begins with; every year has one output, made from the last such CSV file or workbook. The archive of a year has exactly the files named after it, in their order. (Of two test files for a year one is dropped without notice, and files whose names merely contain .csv are archived as well.)", "quantifier": "all directories", "why_tests_cant": "All names and orders of files.", "anchors": ["python/fastsim/utils/vehicle_import_preproc.py:process_epa_test_data", "python/fastsim/utils/vehicle_import_preproc.py:create_zip_archives_by_year"]}
{"id": "C100", "title": "The future of a trace does not change the past of a run", "statement": "If two cycles agree on their first samples, two runs of the same vehicle from the same initial state of charge agree in every result at those samples, also with load overrides that agree there and are still used later. (Exceptions: trailing zeros of an override are replaced by the own load, so that a later non-zero entry changes earlier samples; a hybrid whose initial state of charge is found by balancing depends on the whole cycle.)", "quantifier": "all vehicles, cycles, initial states of charge and overrides, with the options that change the cycle off", "why_tests_cant": "Needs all continuations of all traces.", "anchors": ["python/fastsim/simdrive.py:SimDrive.sim_drive_walk", "python/fastsim/simdrive.py:SimDrive.solve_step", "python/fastsim/simdrive.py:SimDrive.set_misc_calcs"]}
{"id": "C101", "title": "When the clock starts does not matter", "statement": "Adding a constant to all times of a cycle changes no result of a run at any sample, with or without charge balancing and load overrides, and changes no failure. If the cycle begins at rest and an override begins with zero, no figure computed after the run (energies, fuel economy, audit, trace miss) changes either. (Otherwise the time stamp of the first sample counts as a step before it: it adds load energy, and a cycle that begins in motion at a late time is reported as missed.)", "quantifier": "all vehicles, cycles, shifts, initial states of charge and overrides, with the options that change the cycle off", "why_tests_cant": "All cycles and shifts.", "anchors": ["python/fastsim/simdrive.py:SimDrive.sim_drive", "python/fastsim/cycle.py:Cycle.dt_s", "python/fastsim/simdrive.py:SimDrive.set_post_scalars"]}
{"id": "C102", "title": "Which vehicle attributes a run reads", "statement": "A run reads the derived attributes of a vehicle only: two vehicles that differ in others (component masses and their inputs, override masses, original maps, peak-efficiency overrides, charger efficiency, battery-life coefficients, tank size) give the same results. (So the tank has no bottom: a run can use more fuel than the tank holds.)", "quantifier": "all pairs of vehicles that agree in the attributes listed in the specification, all cycles, initial states of charge and overrides, with the options that change the cycle off", "why_tests_cant": "All pairs of vehicles.", "anchors": ["python/fastsim/simdrive.py:SimDrive", "python/fastsim/vehicle.py:Vehicle.set_derived"]}
{"id": "C103", "title": "An engine-only vehicle ignores the initial state of charge", "statement": "For a vehicle with an engine and neither motor nor battery the initial state of charge, whatever it is, changes no power, energy, speed, distance or state of charge after the first sample; only the flags that record why an engine would be on can differ.", "quantifier": "all such vehicles with an own electric load carried by the engine, all cycles, overrides without negative loads and initial states of charge", "why_tests_cant": "All cycles and initial values.", "anchors": ["python/fastsim/simdrive.py:SimDrive.sim_drive_walk", "python/fastsim/simdrive.py:SimDrive.set_hybrid_cont_decisions"]}
{"id": "C104", "title": "Standing still takes no traction", "statement": "On a cycle whose speed is always zero, on any grades, a vehicle does not move, meets the trace and has all road, tyre, brake and transmission powers zero, as long as its transmission power limit is not negative. (When it is negative, as with an empty battery or a load above the engine power, the vehicle rolls downhill.)", "quantifier": "all vehicles, standing cycles, overrides and initial states of charge, with the options that change the cycle off", "why_tests_cant": "All grades, step lengths and vehicles.", "anchors": ["python/fastsim/simdrive.py:SimDrive.set_power_calcs", "python/fastsim/simdrive.py:SimDrive.set_ach_speed"]}
{"id": "C105", "title": "What a fuel-economy label reads of a vehicle", "statement": "Two vehicles that differ only in attributes no simulation reads (name, year, tank size, charger efficiency, life coefficients, ...) get the same label figures, or both fail with the same error; for a plug-in hybrid the label also reads the charger efficiency, the tank size and the original motor map. In particular the charger efficiency given for an all-electric vehicle has no effect on its label: energy from the wall is always battery energy over 0.86.", "quantifier": "all vehicles, UDDS and HWFET cycles, chart years, charger efficiencies and tank sizes", "why_tests_cant": "Independence from an attribute is a statement about all pairs of values and all vehicles.", "anchors": ["python/fastsim/simdrivelabel.py:get_label_fe", "python/fastsim/simdrivelabel.py:get_label_fe_phev"]}
{"id": "C106", "title": "Loading vehicles from the shared database is repeatable", "statement": "Vehicle.from_vehdb works on one table that it overwrites as it loads. Nevertheless the vehicle obtained for a number is, after any sequence of earlier loads (successful or not), the one that the original row describes; whatever the table, a load yields what a row with that number says and nothing else; a number that is not in the table raises KeyError and changes nothing; rows that were not asked for stay as they were, and rows that were hold the values read instead of the texts. (So the table passed to from_df is changed, even if no vehicle results.)", "quantifier": "all tables with different headings and whole vehicle numbers, all sequences of loads; numbers are printed so that they are read back unchanged", "why_tests_cant": "All sequences of operations on shared mutable state.", "anchors": ["python/fastsim/vehicle.py:Vehicle.from_vehdb", "python/fastsim/vehicle.py:Vehicle.from_df", "python/fastsim/vehicle.py:clean_data"]}
{"id": "C107", "title": "Order of columns, vehicle numbers and single-vehicle files do not matter", "statement": "Reordering the columns of a vehicle table, or the entries of a vehicle dict, gives the same vehicle, provided no parameter is given twice. The vehicle number is stored and affects nothing else. A file with the parameters of one vehicle gives the same vehicle as a database row with the same cells, with number 0.", "quantifier": "all rows and dicts from which a vehicle can be made, all permutations, all numbers", "why_tests_cant": "All permutations of all inputs.", "anchors": ["python/fastsim/vehicle.py:Vehicle.from_df", "python/fastsim/vehicle.py:Vehicle.from_file", "python/fastsim/vehicle.py:Vehicle.from_dict"]}
{"id": "C108", "title": "Legacy vehicles", "statement": "LegacyVehicle(veh) has exactly one attribute for every attribute of the vehicle, under its old name and with its value; no two attributes share an old name and no old name is the new name of another attribute. The motor-size limits, base-line motor efficiencies, best modern efficiency and roadway charging table are the same for every vehicle. copy_vehicle(veh, 'legacy') always raises AttributeError instead of giving such an object, and so does copy_vehicle of a legacy vehicle.", "quantifier": "all vehicles", "why_tests_cant": "All vehicles and the whole name table.", "anchors": ["python/fastsim/vehicle.py:LegacyVehicle", "python/fastsim/vehicle.py:copy_vehicle", "python/fastsim/vehicle_base.py:NEW_TO_OLD"]}
{"id": "C109", "title": "The Rust and the Python implementation compute the same run", "statement": "For a run without trace-miss correction, coasting and car following, on a vehicle whose maps start at zero, reach rated power and have no grid point just below the top of the motor's map (every derived vehicle with a motor of at least 1 kW has such a mechanical grid), with increasing times and an auxiliary override of fitting length, the two implementations (as exact arithmetic) accept the same runs and give the same results in every step; fuel power and the limit on it, which nothing else reads, also agree in every step in which the engine is below its rated power. If it always is, the final states are identical. For a hybrid without a given charge the search for a balanced charge takes the same rounds in both and ends in the same state, provided no walk reaches rated engine power and the battery's window lies within [0, 1].", "quantifier": "all vehicles, cycles, starting charges and overrides as described, all steps", "why_tests_cant": "Agreement of two programs on all inputs; the repository's own comparison runs a few cycles within a tolerance.", "anchors": ["python/fastsim/simdrive.py:SimDrive.sim_drive_walk", "python/fastsim/simdrive.py:SimDrive.solve_step", "rust/fastsim-core/src/simdrive/simdrive_impl.rs:walk", "rust/fastsim-core/src/simdrive/simdrive_impl.rs:solve_step"]}
{"id": "C110", "title": "Fuel at rated engine power depends on the implementation", "statement": "In a step in which the engine delivers exactly its rated power Python burns the power divided by the last efficiency of the engine's table and Rust the power divided by the last but one; with a table whose last two entries are equal both implementations end in the same state whatever the load. So 'both implementations report the same fuel' is FALSE.", "quantifier": "all runs as in C109, all steps", "why_tests_cant": "A boundary that is hit only at full load; comparing totals within a tolerance hides it.", "anchors": ["python/fastsim/simdrive.py:SimDrive.set_fc_power", "rust/fastsim-core/src/simdrive/simdrive_impl.rs:set_fc_power", "rust/fastsim-core/src/utils.rs:first_grtr"]}
{"id": "C111", "title": "Runs that only one implementation completes", "statement": "Through the step interface, a roadway charging limit above a positive battery charging limit aborts the Rust program whenever there is a motor, while Python completes the step. 'Both complete the same runs' is also FALSE for hybrids without a given starting charge: Python can reject its own next guess of the charge, which Rust keeps within the battery's limits. 'Both read the motor map alike' is FALSE for motors below 1 kW.", "quantifier": "all steps (roadway power); existence of runs (the rest)", "why_tests_cant": "Needs inputs at the edge of the tables, and the general abort is a statement about all vehicles and states.", "anchors": ["rust/fastsim-core/src/simdrive/simdrive_impl.rs:set_comp_lims", "rust/fastsim-core/src/simdrive/simdrive_impl.rs:sim_drive", "python/fastsim/simdrive.py:SimDrive.set_comp_lims", "python/fastsim/simdrive.py:SimDrive.sim_drive"]}
{"id": "C112", "title": "Figures reported after a run by the two implementations", "statement": "After sim_drive on a fresh object whose trace starts at time zero and moves, Rust reports the same figures as Python apart from those that contain fuel, and all the same figures if the engine stayed below rated power. On a trace that never moves after its first sample Rust's sim_drive ends with an error although the run itself succeeds; Python reports. Rust's figures do not depend on when the clock starts (Python's do, C101), so on traces that start late the two differ. Rust's missed-time fraction is signed, Python's its absolute value; Rust flags a missed trace only if Python does.", "quantifier": "all vehicles, traces, starting charges and load overrides as in C109; all states (missed time)", "why_tests_cant": "The comparison test of the repository covers some vehicles on traces that start at zero and move; agreement of every reported figure on every run is a relational statement.", "anchors": ["rust/fastsim-core/src/simdrive/simdrive_impl.rs:set_post_scalars", "rust/fastsim-core/src/cycle.rs:dt_s", "python/fastsim/simdrive.py:SimDrive.set_post_scalars", "python/fastsim/cycle.py:Cycle.dt_s"]}
{"id": "C113", "title": "A compiled vehicle is the same vehicle", "statement": "veh.to_rust() of a vehicle without motor-peak override, with inputs in range, increasing map grids and a motor grid ending at or below rated power gives a compiled vehicle with the same value in every attribute, given and derived, that set_derived gives the Python one (the overrides themselves apart: mass kept if positive, peaks cleared). Whatever to_rust accepts has all inputs in range. Simulating the compiled vehicle with the compiled program gives the same channels in every step as simulating the Python vehicle in Python, fuel apart, and fuel too if the engine stays below rated power. FALSE with a motor-peak override (electric powers differ), with a motor grid beyond rated power (efficiency at rated power differs), and for some vehicles Python accepts (to_rust refuses them).", "quantifier": "all vehicles, cycles, starting charges, load overrides", "why_tests_cant": "The repository compares a few vehicles; equality of all derived tables needs agreement of two interpolation routines on every grid.", "anchors": ["python/fastsim/vehicle.py:Vehicle.to_rust", "python/fastsim/vehicle.py:Vehicle.set_derived", "rust/fastsim-core/src/vehicle.rs:set_derived", "rust/fastsim-core/src/utils.rs:interpolate"]}
{"id": "C114", "title": "Editing a compiled vehicle", "statement": "Deriving a compiled vehicle again changes nothing unless a motor-peak override was used up by the first derivation; such an override is lost by the second, an engine-peak override stays. A peak set on the engine stays when deriving again and a peak set on the motor is lost: the reverse of Python (C46). Another motor map takes effect when deriving; another engine map does not (FALSE: the table follows the map). Any given mass override is the mass, also zero (FALSE: zero means none), and the component masses are then left as they were; without override they are computed as in Python.", "quantifier": "all vehicles, maps and peaks", "why_tests_cant": "Statements about repeated derivation for arbitrary vehicles and edits.", "anchors": ["rust/fastsim-core/src/vehicle.rs:set_derived", "rust/fastsim-core/src/vehicle.rs:set_veh_mass", "rust/fastsim-core/src/vehicle.rs:set_fc_peak_eff", "rust/fastsim-core/src/vehicle.rs:set_mc_peak_eff"]}
{"id": "C115", "title": "A compiled cycle is the same cycle", "statement": "cyc.to_rust() succeeds exactly when the arrays have one nonzero length and strictly increasing times, and gives the same arrays and name. A dict of times and speeds with or without grades, road types and name makes the same cycle in both classes, and the dict of a compiled cycle makes the same cycle again. Speeds in mph are read and written alike. Step durations, distances and elevations are the same when times start at 0; otherwise they differ in the first step only, where the compiled class has 0, and elevations by one constant. Averages, trapezoidal distances of steps, starts and ranges are the same for any first time. FALSE of dicts with the key names of old versions (compiled class refuses them) and with extra keys (only Python refuses).", "quantifier": "all cycles, dicts, step numbers and ranges", "why_tests_cant": "The repository compares a handful of built-in cycles that start at 0; equality for all arrays is a statement about two implementations.", "anchors": ["python/fastsim/cycle.py:Cycle.to_rust", "python/fastsim/cycle.py:Cycle.from_dict", "python/fastsim/cycle.py:Cycle.dt_s", "python/fastsim/cycle.py:trapz_step_start_distance", "rust/fastsim-core/src/cycle.rs:init_checks", "rust/fastsim-core/src/cycle.rs:from_dict", "rust/fastsim-core/src/cycle.rs:trapz_step_distances"]}
{"id": "C116", "title": "Questions about the road ahead, Python and compiled", "statement": "Both classes build the same cache and report the same average grade over any stretch of a cycle that moves, and the same grade at a point of any cycle, with or without the cache. For a stop ahead both report the same distance. FALSE of a cycle that never moves (compiled class fails where Python reports a number) and when no stop is ahead (Python reports minus the position, the compiled class the rest of the trip).", "quantifier": "all cycles, positions, stretches, with or without cache", "why_tests_cant": "Agreement at every real position and for every elevation profile.", "anchors": ["python/fastsim/cycle.py:CycleCache", "python/fastsim/cycle.py:Cycle.average_grade_over_range", "python/fastsim/cycle.py:Cycle.calc_distance_to_next_stop_from", "rust/fastsim-core/src/cycle.rs:RustCycleCache", "rust/fastsim-core/src/cycle.rs:average_grade_over_range", "rust/fastsim-core/src/cycle.rs:calc_distance_to_next_stop_from"]}
{"id": "C117", "title": "Editing cycles, Python and compiled", "statement": "Constant-jerk speeds, accelerations, distances and plans are the same; writing a plan into a cycle has the same effect for at least one step inside the cycle; braking does the same when the number of steps is not half way between whole numbers; a passing is reported with the same figures, micro-trips and the table of target speeds are the same, and extending by whole seconds gives the same arrays (Python drops the name, the compiled class keeps it). FALSE: a plan with a zero divisor (Python raises, the compiled function returns infinities), no steps (different speed returned), past the end (Python raises), half-way numbers of steps or seconds (rounded to even in Python, up in Rust), and a leader that stands behind the start (a passing only for the compiled class).", "quantifier": "all cycles, plans, positions, speeds", "why_tests_cant": "The differing roundings and the missing check show only on particular inputs; agreement elsewhere is for all reals.", "anchors": ["python/fastsim/cycle.py:calc_constant_jerk_trajectory", "python/fastsim/cycle.py:Cycle.modify_with_braking_trajectory", "python/fastsim/cycle.py:detect_passing", "python/fastsim/cycle.py:to_microtrips", "python/fastsim/cycle.py:create_dist_and_target_speeds_by_microtrip", "python/fastsim/cycle.py:extend_cycle", "rust/fastsim-core/src/cycle.rs:modify_with_braking_trajectory", "rust/fastsim-core/src/cycle.rs:detect_passing", "rust/fastsim-core/src/cycle.rs:extend_cycle"]}
{"id": "C118", "title": "Car following, Python and compiled", "statement": "On a level road, with times starting at zero and car following as the only option, a run through the compiled program gives the same driven cycle and the same results at every step as the Python run, fuel at rated engine power apart; it is the very same run if the engine stays below rated power; both complete unless the table of target speeds is empty, and one refuses a run exactly when the other does. The reported distance to the leader is the same, and switching the option on gives the same state for the same arguments and is refused for the same arguments. With every option off the complete compiled step is the plain one. FALSE on a sloping road: where the car cannot keep the speed it wants, the compiled program settles for a slope off by up to 1/10000, Python for 1/1000000, and the speeds differ.", "quantifier": "all vehicles with maps read alike, all level cycles, all target tables, all arguments of activate_eco_cruise", "why_tests_cant": "Each step feeds the next; agreement over a run of any length is an invariant between two programs.", "anchors": ["python/fastsim/simdrive.py:SimDrive.sim_drive_step", "python/fastsim/simdrive.py:SimDrive._next_speed_by_idm", "python/fastsim/simdrive.py:SimDrive.activate_eco_cruise", "python/fastsim/simdrive.py:SimDrive.gap_to_lead_vehicle_m", "rust/fastsim-core/src/simdrive/cyc_mods.rs:next_speed_by_idm", "rust/fastsim-core/src/simdrive/cyc_mods.rs:activate_eco_cruise", "rust/fastsim-core/src/simdrive/simdrive_impl.rs:step"]}
{"id": "C119", "title": "Correction of a missed trace, Python and compiled", "statement": "With missed-trace correction as the only option and times starting at zero, a run in which Python corrects nothing is the same in the compiled program; otherwise the two agree up to and including the first corrected step, with the same stretched time stamp there. Both complete every run with an admissible state of charge, and refuse the same ones. FALSE afterwards: once a step has been stretched the compiled program measures the miss against the stretched cycle and corrects no more, so that it can end far from where the trace ends while Python is on place.", "quantifier": "all vehicles with maps read alike, all cycles, all bounds of the stretch above -1", "why_tests_cant": "The number of rounds of correction is not bounded by the inputs of a test, and the divergence shows only after a first correction.", "anchors": ["python/fastsim/simdrive.py:SimDrive.set_time_dilation", "rust/fastsim-core/src/simdrive/cyc_mods.rs:set_time_dilation", "rust/fastsim-core/src/simdrive/simdrive_impl.rs:step"]}
{"id": "C120", "title": "Eco-coasting, Python and compiled", "statement": "At a step of a run on a forward-moving trace with a clear stop ahead, the compiled program and Python estimate the coasting distance alike, decide alike whether to coast, plan the same coast (same speeds, flags and distance; not found in the same cases), plan the same meeting with the stop when the speed is off plan and edit the cycle alike, set the same delay behind the trace and drive the same delayed speed. With steps of equal length, and when the trace would be passed no earlier than two steps ahead, both edit the cycle alike to keep behind it. FALSE without a stop ahead (decision and plan differ), with steps of different lengths, and when the trace would be passed at the next step (the compiled program's count of steps overflows).", "quantifier": "all vehicles, traces, settings and states of the run, step lengths below two seconds where braking starts, away from exact ties", "why_tests_cant": "The plans come out of nested searches over unbounded numbers of steps; agreement on test cycles says nothing about other traces, and the cases of disagreement are rare.", "anchors": ["python/fastsim/simdrive.py:SimDrive._generate_coast_trajectory", "python/fastsim/simdrive.py:SimDrive._calc_distance_to_stop_coast_v2", "python/fastsim/simdrive.py:SimDrive._should_impose_coast", "python/fastsim/simdrive.py:SimDrive._calc_next_rendezvous_trajectory", "python/fastsim/simdrive.py:SimDrive._set_coast_delay", "python/fastsim/simdrive.py:SimDrive._prevent_collisions", "python/fastsim/simdrive.py:SimDrive._set_coast_speed", "rust/fastsim-core/src/simdrive/cyc_mods.rs:generate_coast_trajectory", "rust/fastsim-core/src/simdrive/cyc_mods.rs:should_impose_coast", "rust/fastsim-core/src/simdrive/cyc_mods.rs:prevent_collisions"]}
{"id": "C121", "title": "Whole runs with eco-coasting, Python and compiled", "statement": "On a level road with eco-coasting as the only option, the compiled program completes every run that Python completes and whose steps avoid the borderline cases of C120, with the same driven cycle and the same figures in every row (fuel included, as long as the engine stays below rated power). On a trace slower than the speed set for the start of coasts both always complete and agree, with no other condition; so do runs whose speeds stay below the one at which the brakes are used, when no such speed is set.", "quantifier": "all vehicles with maps read alike, all level traces with increasing times from zero, all settings of eco-coasting", "why_tests_cant": "A run with eco-coasting re-plans its own cycle at any step; agreement has to be carried through runs of any length and any number of coasts.", "anchors": ["python/fastsim/simdrive.py:SimDrive.sim_drive_walk", "python/fastsim/simdrive.py:SimDrive._set_coast_speed", "rust/fastsim-core/src/simdrive/cyc_mods.rs:set_coast_speed", "rust/fastsim-core/src/simdrive/simdrive_impl.rs:walk"]}
{"id": "C122", "title": "Window-sticker figures, Python and compiled", "statement": "Whenever Python produces a label for a vehicle whose runs the two implementations simulate alike, the compiled program produces one too, and every number of the Python dict is the corresponding field of the compiled record, for conventional, hybrid, electric and plug-in hybrid vehicles; the figures special to plug-in hybrids are absent for the others. The time to 60 mph is the same when the speed rises with every sample up to 60 mph, or never gets there. The utility factors agree up to the end of the table at 1201 miles; beyond it the compiled program goes on with 1 where Python refuses. The trace miss that only the compiled label reports is the greatest difference from the speeds of the two cycles. Without fuel Python refuses to make a label and the compiled program reports a mileage of 0; with two samples at 60 mph the two report different times.", "quantifier": "all vehicles with maps read alike, all pairs of cycles with increasing times from zero that move, all model years", "why_tests_cant": "The label is built from up to seven runs and a chain of table look-ups and array operations whose lengths depend on the number of cycles the battery lasts; agreement on some vehicles says nothing about others.", "anchors": ["python/fastsim/simdrivelabel.py:get_label_fe", "rust/fastsim-core/src/simdrivelabel.rs:get_label_fe", "rust/fastsim-core/src/simdrivelabel.rs:get_label_fe_phev", "rust/fastsim-core/src/simdrivelabel.rs:get_net_accel", "rust/fastsim-core/src/simdrivelabel.rs:make_accel_trace"]}
{"id": "C123", "title": "Helper functions, Python and compiled", "statement": "The compiled helpers give what the Python helpers give: the air density (180 m if no elevation is given), the default physical properties and the heating value read and set, the time-averaged error between two signals with the same refusals, and, when no fit is asked for, the drag and rolling coefficients from coast-down coefficients, which the compiled function returns and stores for every vehicle. A tyre code gives rim radius plus side wall. In a text without spaces the compiled program takes the first place where Python would accept the rest, so every code Python accepts gets the same radius. With a space before the construction letter ('P205/60 R16') Python silently reads another, far too small tyre; light-truck codes are accepted by the compiled program only.", "quantifier": "all vehicles, coefficients, temperatures, elevations, signals and texts", "why_tests_cant": "Tyre codes are matched by a backtracking pattern, and two patterns can agree on every sample of a test and part on a code with one space more.", "anchors": ["rust/fastsim-core/src/vehicle_utils.rs:abc_to_drag_coeffs", "rust/fastsim-core/src/vehicle_utils.rs:get_error_val", "rust/fastsim-core/src/utils.rs:tire_code_to_radius", "rust/fastsim-core/src/params.rs:get_fuel_lhv_kj_per_kg", "rust/fastsim-core/src/air.rs:get_rho", "python/fastsim/utils/utilities.py:calculate_tire_radius", "python/fastsim/auxiliaries.py:abc_to_drag_coeffs", "python/fastsim/calibration.py:get_error_val"]}
{"id": "C124", "title": "Tables of air properties", "statement": "Every air property has a value at every temperature, within the bounds of its table. From -60 to 5000 degrees the temperature found from an enthalpy is the one the enthalpy was found from, and the other way round; enthalpy, conductivity and viscosity rise with the temperature, at bounded rates; between neighbouring temperatures of the table the enthalpy rises at the specific heat, within two per cent. Outside the values are those at the ends, so there the enthalpy does not tell the temperature.", "quantifier": "all temperatures and enthalpies", "why_tests_cant": "Temperatures form a continuum; tests sample single ones and would not see a misprinted table entry between them.", "anchors": ["rust/fastsim-core/src/air.rs:AirProperties", "rust/fastsim-core/src/utils.rs:interpolate"]}
{"id": "C125", "title": "Engine, cabin and HVAC temperatures", "statement": "Of the waste heat of the engine a share between 0 and 1 warms the engine and the rest leaves with the exhaust; engine and cabin temperature follow their heat balances, and their losses to the air flow from hot to cold, the engine's between its passive value and rad_eps times that according to the thermostat. An engine that soaks goes towards the ambient temperature and not past it, however long the soak, if the time steps are short against its time constant. Within the deadband the HVAC moves no heat; above it only cools and below it only heats, with an electric power between 0 and its limit and heat in proportion, or with heat the engine loses and only if the engine is warmer. With steps of an hour a soak ends far below ambient, and within the deadband the HVAC's electric power and the heat taken from the engine stay at their last values, although no heat is moved. The HVAC asks for heat in proportion to the temperature error, to its sum, held to one sign and within the limit, and to its rate, at a fixed fraction of the ideal coefficient of performance. On the move the losses follow the printed correlations for a sphere (engine) and a flat plate (cabin), and the flame has the enthalpy of the charge and of the fuel that finds air.", "quantifier": "all parameters, states, steps and soaks or runs of any length", "why_tests_cant": "The state carries over from step to step; tests compare single trips with recorded values and do not vary parameters, temperatures and step sizes together.", "anchors": ["rust/fastsim-core/src/thermal.rs:set_thermal_calcs", "rust/fastsim-core/src/thermal.rs:set_fc_thermal_calcs", "rust/fastsim-core/src/thermal.rs:set_cab_thermal_calcs", "rust/fastsim-core/src/thermal.rs:thermal_soak_walk", "rust/fastsim-core/src/vehicle_thermal.rs:VehicleThermal", "rust/fastsim-core/src/vehicle_thermal.rs:HVACModel"]}
{"id": "C126", "title": "Exhaust port and catalyst", "statement": "The exhaust carries the waste heat that does not warm the engine, and its temperature is that of its enthalpy, at most the flame's; below 0.5 g/s the last temperature is kept. Exhaust port and catalyst follow their heat balances. Each exchange of heat closes at most the whole temperature difference, so that a port between engine and exhaust stays between them; for a catalyst colder than the exhaust this needs a flow small enough or a cabin of no more thermal mass than the catalyst. Otherwise the exhaust can heat the catalyst past its own temperature, as the limit uses the thermal mass of the cabin. On the move the catalyst's coefficient is not updated, so that on a trip without a stop it loses no heat to the air. The surface of engine and catalyst is that of a sphere for a diameter of one metre only. The exchanges have the size that coefficient, area, flow and temperature difference give, or less where that would take more than there is. On the move the coefficient reported for the engine is the catalyst's.", "quantifier": "all parameters, states and steps", "why_tests_cant": "The violations need large steps or particular parameters; a test with the default vehicle and one-second steps sees plausible temperatures.", "anchors": ["rust/fastsim-core/src/thermal.rs:set_exhport_thermal_calcs", "rust/fastsim-core/src/thermal.rs:set_cat_thermal_calcs", "rust/fastsim-core/src/vehicle_thermal.rs:fc_area_ext", "rust/fastsim-core/src/vehicle_thermal.rs:cat_area_ext", "rust/fastsim-core/src/vehicle_thermal.rs:get_sphere_conv_params"]}
{"id": "C127", "title": "Fuel and auxiliary load by temperature", "statement": "The temperature coefficient of the engine lies between its minimum and 1 and does not fall as engine and catalyst warm up, so an engine takes no less fuel cold than warm, and never less than without the thermal model; without output it takes none. The HVAC's power is added to the auxiliary load. With the option that combines catalyst and engine the penalty of a cold catalyst is kept after light-off, and a trip that starts with a lit catalyst divides by 0.", "quantifier": "all parameters, temperatures, outputs and loads", "why_tests_cant": "Temperatures and parameters form a continuum, and the option that goes wrong is not the default.", "anchors": ["rust/fastsim-core/src/thermal.rs:set_fc_power", "rust/fastsim-core/src/thermal.rs:set_misc_calcs", "rust/fastsim-core/src/vehicle_thermal.rs:FcTempEffModel", "rust/fastsim-core/src/vehicle_thermal.rs:FcTempEffComponent"]}
{"id": "C128", "title": "The EPA test chosen for a vehicle", "statement": "Of the EPA tests of the year and make of a vehicle, tests of cold-start emissions excepted, the one taken is the best by name and, among equals, by a score between 0 and 3 that is 3 exactly if engine, drive, transmission and number of gears agree; among equals the first in the file is taken, and none only if no test has anything in common with the name. A test with the same test id (but for its first character) or the same name, in capitals or not, has the name mark 1; other tests have a positive mark exactly if they share a word, and at most 1 if no word occurs twice in the test's name. If one does, a test of another name can be preferred to that of the very same name.", "quantifier": "all vehicle records and lists of tests", "why_tests_cant": "A test imports a few vehicles from recorded files; which of many tests is best depends on all of them, and the file changes every year.", "anchors": ["rust/fastsim-core/src/vehicle_import.rs:match_epatest_with_fegov_v2"]}
{"id": "C129", "title": "What is read from the name of a transmission", "statement": "Names with a number between S and a bracket give that number of gears and the code SCV, AMS or SA; names with \"(A\", a number and a bracket give the number, or 1 gear if it is not a number; variable gear ratios count as one gear. Names with \"-spd\" give the digit before it, so that ten speeds are read as none. A name that fits none of these, such as an empty one or one with a closing bracket before any opening one, is refused.", "quantifier": "all texts and numbers of gears", "why_tests_cant": "Names are free text of a yearly growing file.", "anchors": ["rust/fastsim-core/src/vehicle_import.rs:derive_transmission_specs"]}
{"id": "C130", "title": "The vehicles imported for a request", "statement": "The vehicles made for a request are those of the records with its year, make and model, but for capitals and blanks at the ends, for which a test can be found: one for each record and in their order. Mass, frontal area, powers, tank and battery are those of test, record and request in the right units and by powertrain; a conventional vehicle takes no engine power from the request and an electric one neither motor nor battery power. The import is refused exactly if the transmission of a record asked for cannot be read.", "quantifier": "all requests, records and tests", "why_tests_cant": "Tests import single vehicles; order, completeness and refusal concern all combinations of files.", "anchors": ["rust/fastsim-core/src/vehicle_import.rs:try_import_vehicles", "rust/fastsim-core/src/vehicle_import.rs:get_fuel_economy_gov_data_for_input_record", "rust/fastsim-core/src/vehicle_import.rs:try_make_single_vehicle"]}
{"id": "C131", "title": "Interpolation in tables of any dimensionality", "statement": "Interpolation in a table is accepted exactly if point, coordinates and table have the same number of dimensions, each dimension's coordinates rise strictly and are as many as the table's entries along it, and the point is not outside them. The value is the interpolation between neighbouring coordinates in each dimension, which is unique; at a point of the grid it is the entry, it stays within the bounds of the entries, and a function that is a straight line in each of its arguments is met exactly. With one dimension it agrees with the interpolation used for the vehicle's tables.", "quantifier": "all numbers of dimensions, coordinates, tables and points", "why_tests_cant": "Tests use one to three dimensions and a few points; number of dimensions and the pattern of coordinates that are hit exactly are unbounded.", "anchors": ["rust/fastsim-core/src/utils.rs:multilinear", "rust/fastsim-core/src/utils.rs:get_index_permutations"]}
{"id": "C132", "title": "Batches of simulations, in parallel or not", "statement": "A list of simulations run without error holds what sim_drive gives for each alone, in parallel or not and in whatever order the runs happen. Whether there is an error does not depend on running in parallel. One after another, the first error ends the batch: those before it are run, those after it untouched. In parallel the error returned is that of the simulation it names, which need not be the first, and every other simulation has been run once or is untouched. Adding and removing simulations keeps the order of the others, and positions beyond the end are refused.", "quantifier": "all lists of simulations and all interleavings of parallel runs", "why_tests_cant": "The interleavings of parallel runs are not under the control of a test, and their number grows with the factorial of the list's length.", "anchors": ["rust/fastsim-core/src/simdrive/simdrive_iter.rs:SimDriveVec"]}
