{"claims": [
{"property": "C01", "status": "proved", "theorems": ["C01_rotor_limits", "C01_rotor_limits_history", "C01_no_undefined_clamp", "C01_simulator", "C01_simulator_binary64"], "note": "Proved for all inputs of the model."},
{"property": "C02", "status": "proved", "theorems": ["C02_unit_orientation", "C02_unit_orientation_history", "C02_binary64", "C02_simulator"], "note": "Exact over the reals. In binary64 within 2^-49 along every run of finite positive steps with body rates below 2^400 rad/s from a start of squared length in [1/2, 3/2]."},
{"property": "C03", "status": "proved", "theorems": ["C03_rejected_without_effect", "C03_throws_only_then"], "note": "Proved for all inputs of the model."},
{"property": "C04", "status": "partial", "theorems": ["C04_refuted", "C04_binary64_refuted", "C04_substeps_partial", "C04_overflow_undefined"], "note": "False of the code as worded: ceil(dt/0.01) full steps are taken. Refuted over the reals and in binary64; the exact sub-step law and the overflow are proved."},
{"property": "C05", "status": "partial", "theorems": ["C05_refuted", "C05_gravity_over_mass"], "note": "False of the code: acceleration is g/m. Refuted; the exact law is proved."},
{"property": "C06", "status": "proved", "theorems": ["C06_newton", "C06_noise_term_absent"], "note": "Proved for all inputs of the model."},
{"property": "C07", "status": "proved", "theorems": ["C07_rigid_body", "C07_attitude_kinematics", "C07_rotor_acceleration"], "note": "The rigid-body law holds with the force-noise sample in the place of the torque noise (see C08)."},
{"property": "C08", "status": "partial", "theorems": ["C08_refuted", "C08_force_sample_in_torque_refuted", "C08_parameter_ignored"], "note": "False of the code: torque noise is the force sample. Refuted; non-interference of the moment parameter is proved for all histories."},
{"property": "C09", "status": "proved", "theorems": ["C09_noise_free_reproducible", "C09_zero_noise_is_no_noise"], "note": "Proved for all inputs of the model."},
{"property": "C10", "status": "proved", "theorems": ["C10_rotor_lag", "C10_rotor_limit"], "note": "Proved in exact arithmetic; with roundings see C114."},
{"property": "C11", "status": "proved", "theorems": ["C11_rejected_unchanged", "C11_accepted_forgets_old", "C11_accepted_keeps_noise_state"], "note": "Proved for all inputs of the model."},
{"property": "C12", "status": "partial", "theorems": ["C12_refuted", "C12_inertia_refuted", "C12_time_constant_refuted", "C12_rotor_count_refuted", "C12_nan_mass_refuted", "C12_zero_mass_nan_refuted", "C12_validation_partial", "C12_meaningful_accepted"], "note": "False of the code: zero mass, indefinite inertia, zero time constants, NaN and short motor lists are accepted. Refuted; what validation guarantees is characterised exactly and meaningful symmetric parameters are proved accepted."},
{"property": "C13", "status": "partial", "theorems": ["C13_rebuilt_mixer", "C13_mixer_getter_refuted"], "note": "False of the code: the member returned is never written. Proved that every reachable model returns an indeterminate value."},
{"property": "C14", "status": "proved", "theorems": ["C14_quad_x_pure_thrust", "C14_quad_plus_pure_thrust", "C14_hexa_pure_thrust", "C14_quad_x_moments"], "note": "Proved for all inputs of the model."},
{"property": "C15", "status": "proved", "theorems": ["C15_force_is_rotor_sum", "C15_torque_is_rotor_sum", "C15_thrust_is_rotor_sum", "C15_four_row_mixer"], "note": "Proved for all inputs of the model."},
{"property": "C16", "status": "proved", "theorems": ["C16_binary64", "C16_binary64_grows", "C16_drag_dissipates", "C16_aerodynamic_moment_dissipates"], "note": "Proved: the drag force never does positive work and the aerodynamic moment neither when its matrix is positive semidefinite; in double precision drag opposes the motion on every axis and grows with the speed."},
{"property": "C17", "status": "proved", "theorems": ["C17_hover_fixed_point"], "note": "Proved for all inputs of the model."},
{"property": "C18", "status": "proved", "theorems": ["C18_root_of_square_binary64", "C18_square_of_root_binary64", "C18_odd_binary64", "C18_increasing_binary64", "C18_rounding", "C18_square_of_root", "C18_root_of_square", "C18_odd", "C18_increasing"], "note": "Proved over the reals, and on doubles with the stated error. C18_rounding shows the limits are needed: the square of the root of 2 is not 2, 2^-600 squares to zero and 2^600 to infinity."},
{"property": "C19", "status": "proved", "theorems": ["C19_translation_invariant"], "note": "Proved in exact arithmetic; with roundings the positions need not stay apart by the same vector, everything else does not depend on the position (C115)."},
{"property": "C20", "status": "partial", "theorems": ["C20_per_axis", "C20_scalar", "C20_proportional", "C20_proportional_binary64_refuted", "C20_band_refuted"], "note": "Per-axis and scalar saturation proved for any arithmetic with irreflexive <, so for IEEE doubles too (a NaN output exceeds no limit). Proportional saturation proved over the reals for ranges containing zero; refuted in binary64 by one rounding error and over the reals for ranges excluding zero."},
{"property": "C21", "status": "partial", "theorems": ["C21_one_factor", "C21_refuted"], "note": "Proved over the reals for ranges containing zero, with the factor maximal; refuted for accepted ranges that exclude zero."},
{"property": "C22", "status": "partial", "theorems": ["C22_binary64", "C22_bounded", "C22_bounded_scalar", "C22_negative_constant_refuted", "C22_negative_constant_scalar_refuted", "C22_scalar_defined"], "note": "Proved for non-negative constants, in exact arithmetic and (vector controller) in double precision; a negative constant is accepted and breaks the claim (refuted); exact condition for undefined behaviour of the scalar PID."},
{"property": "C23", "status": "proved", "theorems": ["C23_reset_forgets", "C23_reset_same_settings", "C23_reset_forgets_scalar", "C23_settings_keep_memory", "C23_compute_keeps_settings"], "note": "Proved for all inputs of the model."},
{"property": "C24", "status": "proved", "theorems": ["C24_binary64", "C24_no_kick"], "note": "Proved for all inputs of the model in exact arithmetic; in double precision the derivative part is proved zero for the vector controller with numbers of sensible size."},
{"property": "C25", "status": "partial", "theorems": ["C25_refuted", "C25_flag_without_effect", "C25_without_windup"], "note": "False of the code: the comparison is strict and the accumulator is clamped, so the flag has no effect while anti-windup is on. Refuted; absence of any effect proved for all histories; the flag works when anti-windup is off."},
{"property": "C26", "status": "partial", "theorems": ["C26_refuted", "C26_scalar_refuted", "C26_round_trip", "C26_round_trip_scalar"], "note": "False of the code: writing back re-enables a disabled saturation. Refuted; exact condition proved."},
{"property": "C27", "status": "partial", "theorems": ["C27_refuted", "C27_scalar", "C27_validated", "C27_first_axis"], "note": "False of the vector PID (limits are written before later axes are validated); true of the scalar PID."},
{"property": "C28", "status": "partial", "theorems": ["C28_refuted", "C28_nan_until_reset", "C28_nan_until_reset_scalar", "C28_infinite_later_refuted"], "note": "False of the code: NaN until the next reset, proved for every controller and error in binary64."},
{"property": "C29", "status": "proved", "theorems": ["C29_textbook", "C29_textbook_given_derivative"], "note": "Proved for all inputs of the model."},
{"property": "C30", "status": "partial", "theorems": ["C30_axes_are_scalar", "C30_mixed_windup_refuted", "C30_contamination_refuted"], "note": "Proved for every history when anti-windup is on for all or no axes and limits are valid on all or no axes; refuted otherwise, and in binary64 with an infinite error."},
{"property": "C31", "status": "proved", "theorems": ["C31_not_negative", "C31_not_negative_binary64", "C31_value"], "note": "Proved for all inputs of the model."},
{"property": "C32", "status": "proved", "theorems": ["C32_frame", "C32_no_force", "C32_parallel"], "note": "Proved for all inputs of the model."},
{"property": "C33", "status": "partial", "theorems": ["C33_aligned", "C33_yaw_error", "C33_short_way", "C33_descent", "C33_only_when_aligned_refuted"], "note": "Zero rate when aligned, the sine law, the short way for errors below a half turn and the decrease of the attitude mismatch are proved; \"exactly when\" is refuted: facing exactly backwards also commands zero rates."},
{"property": "C34", "status": "proved", "theorems": ["C34_x", "C34_plus", "C34_vehicle"], "note": "The torque is the one of the rigid-body law evaluated at the desired (not the measured) body rate, as the code does."},
{"property": "C35", "status": "proved", "theorems": ["C35_hover_command", "C35_hover_x", "C35_hover_plus", "C35_after_reset"], "note": "Proved for all inputs of the model."},
{"property": "C36", "status": "proved", "theorems": ["C36_no_gain", "C36_response"], "note": "Proved for all inputs of the model."},
{"property": "C37", "status": "partial", "theorems": ["C37_limits_refuted", "C37_feedback"], "note": "False of the code: the feed-forward is added after saturation. Refuted; the feedback part alone is proved within the limits."},
{"property": "C38", "status": "partial", "theorems": ["C38_thrust_refuted", "C38_always_zero"], "note": "False of the code: a local variable shadows the member, the getter is constantly zero. Refuted; constancy proved for every history."},
{"property": "C39", "status": "proved", "theorems": ["C39_noise_free"], "note": "Needs a unit mounting quaternion (the code inverts it without normalising)."},
{"property": "C40", "status": "proved", "theorems": ["C40_bias_walk", "C40_reading", "C40_initial_bias", "C40_settings", "C40_no_time_no_change"], "note": "The initial bias is drawn with the noise variance, as the code does; the reading law needs a unit mounting quaternion."},
{"property": "C41", "status": "partial", "theorems": ["C41_refuted", "C41_always_undefined", "C41_other_getters"], "note": "False of the code: the pair returned by reference is built from a temporary, so every read through it is undefined. Refuted for every IMU."},
{"property": "C42", "status": "proved", "theorems": ["C42_unit_orientation", "C42_rates_average", "C42_rates_in_range", "C42_acceleration_average", "C42_integration", "C42_binary64"], "note": "The filters start from zero, so the range statement includes zero."},
{"property": "C43", "status": "partial", "theorems": ["C43_refuted", "C43_reading", "C43_round_trip"], "note": "False of the code: update_imu applies the orientation instead of its inverse. Refuted; the reading an ideal IMU gives and the round trip through the odometry are proved."},
{"property": "C44", "status": "proved", "theorems": ["C44_above_floor", "C44_binary64"], "note": "Proved for all inputs of the model."},
{"property": "C45", "status": "proved", "theorems": ["C45_contact", "C45_reaction"], "note": "Proved for all inputs of the model."},
{"property": "C46", "status": "partial", "theorems": ["C46_from_construction", "C46_after_disarm", "C46_rotors_stop", "C46_stop_refuted"], "note": "Zero command and frozen controller proved for all histories; rotors run down exponentially when they may stop. Refuted for rotors with a positive minimum speed, which keep turning."},
{"property": "C47", "status": "partial", "theorems": ["C47_same_mode", "C47_new_mode", "C47_mode_is_last_asked", "C47_memory_refuted"], "note": "References and mode proved. The last part is false: integrals accumulated in the old mode act in the new one (refuted)."},
{"property": "C48", "status": "proved", "theorems": ["C48_twins_stay_twins", "C48_entering"], "note": "Proved for all inputs of the model."},
{"property": "C49", "status": "proved", "theorems": ["C49_controller", "C49_imu", "C49_odometry", "C49_dynamics"], "note": "Proved for all inputs of the model."},
{"property": "C50", "status": "partial", "theorems": ["C50_above", "C50_below", "C50_refuted"], "note": "Proved above the floor or with the floor disabled; false below it: the external force is left set (refuted)."},
{"property": "C51", "status": "proved", "theorems": ["C51_rebuilds", "C51_ranges", "C51_scale", "C51_unique", "C51_vertical", "C51_vertical_lost"], "note": "Proved for every non-zero quaternion that is not vertical, with uniqueness; vertical attitudes characterised."},
{"property": "C52", "status": "partial", "theorems": ["C52_state_text", "C52_odometry_text", "C52_print_state_refuted", "C52_print_state_law"], "note": "State and odometry text proved for every arithmetic and formatting; print_state is refuted: three separators are missing for every N (law proved)."},
{"property": "C53", "status": "proved", "theorems": ["C53_step_defined", "C53_simulator", "C53_simulator_binary64"], "note": "Proved for all inputs of the model."},
{"property": "C54", "status": "partial", "theorems": ["C54_rate", "C54_realised_refuted", "C54_simulator"], "note": "False of the code: the commanded rate is k*sin(rate/k). Exact law proved, refuted at rate = pi*k."},
{"property": "C55", "status": "proved", "theorems": ["C55_acro", "C55_acceleration", "C55_velocity", "C55_position", "C55_trajectory", "C55_reachable_pids"], "note": "Proved for all inputs of the model."},
{"property": "C56", "status": "proved", "theorems": ["C56_reseed"], "note": "For generators whose normal distribution caches the second value of each pair (as std::normal_distribution does)."},
{"property": "C57", "status": "partial", "theorems": ["C57_refuted", "C57_mass_times_acceleration"], "note": "False of the code for masses other than 1: the value is mass times acceleration (refuted; law proved)."},
{"property": "C58", "status": "partial", "theorems": ["C58_refuted", "C58_rates_as_mounted"], "note": "False of the code: rates are reported in the mounting frame (refuted; law proved)."},
{"property": "C59", "status": "proved", "theorems": ["C59_stays_landed"], "note": "Proved for all call histories with dynamics steps up to 10 ms."},
{"property": "C60", "status": "partial", "theorems": ["C60_holds_weight_partial", "C60_drift", "C60_refuted"], "note": "False when vehicle and controller are given the same mass (not 1) and gravity: drift law and counterexample. Proved with the gravity parameter set to the weight m*g0, the value the dynamics treats as a force."},
{"property": "C61", "status": "proved", "theorems": ["C61_whole_flight", "C61_stale_motors", "C61_followed_references", "C61_motor_mode"], "note": "Proved in every arithmetic, for one update and for whole flights (any calls but a change to motor or yaw-rate mode, whose references a mode change does not reset: C61_stale_motors)."},
{"property": "C62", "status": "partial", "theorems": ["C62_log_file", "C62_row_complete", "C62_nan_refuted"], "note": "Proved when neither the time nor a reference is NaN; with a NaN the row loses columns (refuted in binary64; a row is complete exactly when there is no NaN)."},
{"property": "C63", "status": "partial", "theorems": ["C63_overrun", "C63_in_range", "C63_sound", "C63_lands", "C63_binary64_refuted", "C63_binary64_overrun", "C63_empty_list", "C63_calls", "C63_in_force"], "note": "Proved in exact arithmetic, including termination and the log. In any arithmetic the accumulated clock decides: C63_overrun and C63_in_range give the two cases. False in binary64: two references, 1.1 s, 5 ms steps index past the list (undefined behaviour), and so does the shipped velocity flight (C112_shipped_velocity_refuted)."},
{"property": "C64", "status": "proved", "theorems": ["C64_matched", "C64_started", "C64_delivered", "C64_defined", "C64_builtin_binary64", "C64_tours"], "note": "Proved over the reals for thrust and torque; the bookkeeping part holds in every arithmetic, absence of undefined behaviour also in binary64 for the built-in configuration. Saturation of rotor speeds by the vehicle itself is C01."},
{"property": "C65", "status": "proved", "theorems": ["C65_vector", "C65_scalar"], "note": "Proved for every arithmetic. While vector saturation is off the stored limits are not specified (a half-accepted range is kept, see C27)."},
{"property": "C66", "status": "proved", "theorems": ["C66_kept", "C66_yaw_kept", "C66_arm"], "note": "Proved for every arithmetic and every call history, including throwing calls."},
{"property": "C67", "status": "proved", "theorems": ["C67_routed"], "note": "Proved for every arithmetic; replacing a whole sub-controller through a reference getter is modelled as its setter calls."},
{"property": "C68", "status": "proved", "theorems": ["C68_parts", "C68_only"], "note": "Proved for every arithmetic, provided the first construction is defined."},
{"property": "C69", "status": "proved", "theorems": ["C69_as_written", "C69_unread", "C69_trajectory_filter"], "note": "Proved for every arithmetic with sane comparisons. The parsing of the file is not modelled: a document is the collection of numbers looked up."},
{"property": "C70", "status": "partial", "theorems": ["C70_heading_without_drag", "C70_quarter_turn", "C70_heading_refuted"], "note": "Proved for every rotation when there is no drag, and for quarter turns about the vertical with drag. Refuted with drag for other headings: the force squares each world component separately."},
{"property": "C71", "status": "proved", "theorems": ["C71_constant_force", "C71_ballistic"], "note": "Proved over the reals. Acceleration is the force divided by the mass; gravity enters as a force (see C05)."},
{"property": "C72", "status": "partial", "theorems": ["C72_spin", "C72_spin_lag", "C72_spin_refuted"], "note": "The rate is kept, but each step turns by 2 atan(|w| dt/2) instead of |w| dt: refuted; the exact law and a third-order bound of the lag are proved."},
{"property": "C73", "status": "partial", "theorems": ["C73_drag_slows", "C73_runs_away", "C73_drag_slows_refuted"], "note": "Proved when drag * speed * dt <= mass. Refuted in general: when drag * speed * dt > 2 mass the velocity flips at every step and grows geometrically."},
{"property": "C74", "status": "proved", "theorems": ["C74_terminal_speed", "C74_terminal_limit"], "note": "Proved over the reals under a step-size condition; the terminal speed is that of the force, not of the mass times gravity (see C05)."},
{"property": "C75", "status": "partial", "theorems": ["C75_x_documented", "C75_plus_documented", "C75_hexagon", "C75_plus_square", "C75_hexa_documented_refuted"], "note": "Proved for X and +. The documented hexarotor matrix is refuted: it is unbalanced (equal speeds would roll the vehicle). What the code builds, a regular hexagon with alternating directions, is proved."},
{"property": "C76", "status": "proved", "theorems": ["C76_x_every_wrench", "C76_plus_every_wrench", "C76_hexa_every_wrench"], "note": "Proved over the reals; speed limits are not considered (C01)."},
{"property": "C77", "status": "proved", "theorems": ["C77_noise_law", "C77_draws", "C77_random_walk"], "note": "Proved over the reals for every generator. The torque receives the force sample (C08), also stated here."},
{"property": "C78", "status": "partial", "theorems": ["C78_sound", "C78_ends", "C78_rows", "C78_lands", "C78_lands_binary64", "C78_endless_binary64", "C78_lands_refuted", "C78_arm_calls", "C78_motor_calls", "C78_pitch_calls", "C78_trajectory_calls", "C78_takeoff_calls", "C78_full_speed", "C78_pitch", "C78_trajectory"], "note": "Proved over the reals; in binary64 when the step is at least 2^-51 of the duration. Refuted for smaller steps: the accumulated time stops growing and the flight never ends. The trajectory generator is an arbitrary function (call lists: a function of time)."},
{"property": "C79", "status": "proved", "theorems": ["C79_step", "C79_run", "C79_bound_needed"], "note": "Binary64, by exponent bounds through every operation of a step. C79_bound_needed shows that the bound is needed: a finite velocity of 2^600 with zero drag gives NaN in one step."},
{"property": "C80", "status": "proved", "theorems": ["C80_reset_forgets", "C80_like_new"], "note": "Any arithmetic. Settings are compared through the public getters, plus the saturation flag of each loop."},
{"property": "C81", "status": "proved", "theorems": ["C81_modes_by_hand"], "note": "Any arithmetic. By hand, the set points that the getters report are not recorded; nothing else differs."},
{"property": "C82", "status": "proved", "theorems": ["C82_retune", "C82_same_story", "C82_same_story_scalar", "C82_retune_loop"], "note": "Any arithmetic. Scalar controller: for histories without undefined behaviour."},
{"property": "C83", "status": "proved", "theorems": ["C83_steer_x", "C83_steer_plus"], "note": "Over the reals, first acro call after a reset, per-axis saturation. The expectations of the INDI unit test are instances."},
{"property": "C84", "status": "proved", "theorems": ["C84_vertical"], "note": "Over the reals, process force noise off, outer-loop limits around zero sideways. In binary64 the attitude is renormalised at each step and the inverse mixer is rounded, so equality is not claimed there."},
{"property": "C85", "status": "partial", "theorems": ["C85_error", "C85_kept", "C85_parts", "C85_derivative", "C85_derivative_refuted", "C85_scalar", "C85_scalar_parts", "C85_scalar_kept", "C85_loops", "C85_loops_kept", "C85_trajectory_velocity", "C85_outputs", "C85_allocation"], "note": "The claim for the derivative-error getter is false of the code (C85_derivative_refuted): it is not written by the two-argument call. C85_derivative states what it does report."},
{"property": "C86", "status": "partial", "theorems": ["C86_attitude", "C86_rates", "C86_reported", "C86_attitude_refuted", "C86_motion"], "note": "Over the reals, steps up to 10 ms (longer ones are split in the vehicle but not in the odometry). The attitude of the same instant is refuted (C86_attitude_refuted); C86_attitude gives what holds."},
{"property": "C87", "status": "partial", "theorems": ["C87_from_any_state", "C87_from_start", "C87_sideways", "C87_upwards_refuted"], "note": "Over the reals. False upwards when no floor was ever enabled (C87_upwards_refuted), since arming requests the stored floor height 0."},
{"property": "C88", "status": "proved", "theorems": ["C88_sensors", "C88_sensors_midway", "C88_disarmed"], "note": "Proved for all inputs of the model."},
{"property": "C89", "status": "proved", "theorems": ["C89_numbering", "C89_allocation"], "note": "Over the reals: sums over the rotors are reordered, which rounding does not allow in binary64."},
{"property": "C90", "status": "partial", "theorems": ["C90_brought_in", "C90_wrong_order", "C90_defined_binary64", "C90_float_limits", "C90_double_limits_partial", "C90_double_limits_refuted", "C90_out_of_range_refuted"], "note": "C90_brought_in holds for any arithmetic with respect to the limits after conversion to float. The caller's double limits are exceeded (C90_double_limits_refuted), by at most one part in 2^24 (C90_double_limits_partial); limits beyond the range of float are undefined (C90_out_of_range_refuted); limits that are floats are respected exactly."},
{"property": "C91", "status": "partial", "theorems": ["C91_loop", "C91_scalar_loop", "C91_controller", "C91_vehicle_refuted"], "note": "Loops and controller proved. False for the vehicle (C91_vehicle_refuted): default mass, inertia and motor time constants are zero, so one update makes rotor speeds and body rates not-a-number, without an error."},
{"property": "C92", "status": "partial", "theorems": ["C92_mirrored", "C92_same_vehicle", "C92_reset_refuted"], "note": "Proved for PID loops without the integral reset on sign change and with symmetric limits. With the reset switched on it is false (C92_reset_refuted): a zero error counts as positive, so a negative integral is dropped where a positive one stays."},
{"property": "C93", "status": "proved", "theorems": ["C93_turned"], "note": "Proved for all headings. Drag-free only: the drag law works per world axis (see the finding on drag and heading)."},
{"property": "C94", "status": "partial", "theorems": ["C94_scaled", "C94_allocation", "C94_acro_refuted", "C94_floor_refuted"], "note": "Proved without floor and outside ACRO. There it is false: arming in ACRO requests a thrust of 9.81 whatever the mass (C94_acro_refuted), and the floor pushes with gravity term times mass, which grows with the square of the factor (C94_floor_refuted)."},
{"property": "C95", "status": "partial", "theorems": ["C95_climb", "C95_reached", "C95_drag_refuted", "C95_descent", "C95_descent_reached"], "note": "Proved for climbs and descents without drag; a descent may ask for at most half the weight less of thrust. With drag a mere gain cannot hold the requested speed (C95_drag_refuted). Integral and derivative action are not covered (but see C96)."},
{"property": "C96", "status": "partial", "theorems": ["C96_total", "C96_between", "C96_mean", "C96_settles", "C96_gain_only_refuted", "C96_bounded", "C96_settles_bounded", "C96_settles_inside", "C96_bound_refuted"], "note": "Proved for loops with a free integral, and for loops with anti-windup whatever the reset flag (C96_bounded, C96_settles_bounded, C96_settles_inside): a standing error is zero, or the integral stands at its bound for ever, on the side of the error. Without integral gain it is false (C96_gain_only_refuted), and so it is with a bound that is too small (C96_bound_refuted): the vehicle hangs still while asked to rise."},
{"property": "C97", "status": "proved", "theorems": ["C97_attitude", "C97_place", "C97_sharp", "C97_flight"], "note": "Proved in exact arithmetic. The odometry integrates the force instead of the acceleration and runs one step ahead (C86), so the flight is compared with mass times the velocity and with the next attitude."},
{"property": "C98", "status": "partial", "theorems": ["C98_work", "C98_fall_partial", "C98_tumbling", "C98_energy_partial", "C98_momentum_partial", "C98_kept_refuted"], "note": "False as stated (C98_kept_refuted): energy grows in every step. Proved instead: the exact growth while falling, and for tumbling that energy never falls, that after a time t it has grown by at most 4 hi t dt E0^2 / lo^2 and that the angular momentum has moved by at most 4 t dt E0 sqrt(hi E0) / lo, so both are kept in the limit of small steps."},
{"property": "C99", "status": "proved", "theorems": ["C99_flight", "C99_reached", "C99_gains_matter", "C99_descent", "C99_descent_reached"], "note": "Proved for the climb to a higher and the descent to a lower place from hanging still; C99_gains_matter shows that the bound on the gains cannot be dropped."},
{"property": "C100", "status": "proved", "theorems": ["C100_converges", "C100_simulator"], "note": "The solution of the differential equations is a hypothesis, its existence is not proved in general (C100_case gives one in closed form). Constant commands, so motor mode; floor off, no noise."},
{"property": "C101", "status": "proved", "theorems": ["C101_run"], "note": "Holds for any order in which the four rotor terms are added, not with fused multiply-add. Hexarotors are not claimed. Size hypotheses as in C79."},
{"property": "C102", "status": "proved", "theorems": ["C102_vector", "C102_scalar", "C102_band_refuted"], "note": "C102_band_refuted shows that the condition on the limits is needed; the controller accepts such limits."},
{"property": "C103", "status": "proved", "theorems": ["C103_imu", "C103_odometry"], "note": "Noise settings must not be negative; the code does not check this."},
{"property": "C104", "status": "proved", "theorems": ["C104_run", "C104_direction"], "note": "The sine and cosine of the C library are assumed to return numbers between -1 and 1 for a finite angle (hypothesis trig_range)."},
{"property": "C105", "status": "proved", "theorems": ["C105_history", "C105_tiny_yaw_gain_refuted"], "note": "The sine, cosine and arc tangent of the C library are assumed to return numbers in their range (trig_range, atan_range). Changes through the mutable references are not part of the histories; C102 to C104 cover the objects themselves. C105_tiny_yaw_gain_refuted shows that a positive but tiny yaw gain must be excluded."},
{"property": "C106", "status": "proved", "theorems": ["C106_position", "C106_velocity", "C106_rates", "C106_odometry", "C106_exact_refuted"], "note": "Steps longer than 10 ms, which the code splits, are not covered. C106_exact_refuted shows that the sum is not met exactly."},
{"property": "C107", "status": "partial", "theorems": ["C107_columns", "C107_empty", "C107_mixed", "C107_nan_refuted"], "note": "Holds for logs without NaN references. With NaN in every row the columns shift silently (C107_nan_refuted), with NaN in some rows the script ends with an exception (C107_mixed). Number format and float() enter through number_printer and reads_back."},
{"property": "C108", "status": "proved", "theorems": ["C108_figures", "C108_error", "C108_yaw_turn_refuted"], "note": "The printed error is the mean distance of the numbers; for yaw this is not the angle between the headings (C108_yaw_turn_refuted). Colours, line styles and windows are not modelled; the mean is taken in exact arithmetic."},
{"property": "C109", "status": "partial", "theorems": ["C109_view", "C109_below_refuted", "C109_reference_refuted"], "note": "x and y always lie within the range; z exactly if it is not negative (C109_view). C109_below_refuted and C109_reference_refuted give flights and references that are not shown."},
{"property": "C110", "status": "proved", "theorems": ["C110_rate", "C110_reached", "C110_thick_air_refuted"], "note": "Conditions in the statement; C110_thick_air_refuted shows that without them (air resisting turning) the rate can stay away from the requested one forever."},
{"property": "C111", "status": "partial", "theorems": ["C111_documented_partial", "C111_agrees_partial", "C111_force", "C111_gravity_refuted", "C111_drag_refuted", "C111_aero_refuted", "C111_components", "C111_pitch_refuted", "C111_attitude_refuted"], "note": "As worded false of the code: gravity (C111_gravity_refuted), drag (C111_drag_refuted) and aerodynamic torque (C111_aero_refuted) are not the documented ones. C111_documented_partial says exactly when a step is the documented one, C111_force by how much the force differs. The documentation contradicts itself in the pitch component (C111_pitch_refuted) and the order of the quaternion product (C111_attitude_refuted)."},
{"property": "C112", "status": "partial", "theorems": ["C112_shipped_binary64", "C112_shipped_velocity_refuted", "C112_velocity", "C112_turning", "C112_trajectory", "C112_incomplete", "C112_incomplete_trajectory", "C112_absent", "C112_garbled", "C112_bad_triple", "C112_empty", "C112_empty_refuted", "C112_valueless_refuted", "C112_shipped", "C112_shipped_lands"], "note": "Proved for all four programs (C112, C112_velocity, C112_turning, C112_trajectory), for incomplete, absent and unparsable files and for the shipped file (C112_shipped, C112_shipped_lands, C112_shipped_binary64). Partial: a reference list that is present without a triple is not refused but indexed (C112_empty, C112_empty_refuted), an entry with a default written without a value is an exception, not the default (C112_valueless_refuted), and in binary64 the velocity flight of the shipped file runs past its list at its end (C112_shipped_velocity_refuted). Text to tree is yaml-cpp; anchors are not modelled."},
{"property": "C113", "status": "partial", "theorems": ["C113_sides", "C113_force", "C113_velocity_partial", "C113_position_partial", "C113_backwards_refuted"], "note": "Proved for the force the vehicle needs (C113_sides: exactly the right sides when it faces as demanded, any tilt and any gains; C113_force: whatever way it faces, for a demanded tilt with cosine above (1 - 2 min(0, cos d))/3, d the heading error), and for the first call of the velocity and position modes after a reset, with equal horizontal gains and proportional limits (C113_velocity_partial, C113_position_partial: calls with an accumulated integral or a derivative term are missing). False for a vehicle facing exactly backwards and asked to go sideways: it does not lean (C113_backwards_refuted)."},
{"property": "C114", "status": "proved", "theorems": ["C114_towards", "C114_stalls", "C114_stops_short"], "note": "Proved, with a witness of a rotor that stops one unit in the last place short of its command."},
{"property": "C115", "status": "proved", "theorems": ["C115_place_independent", "C115_stands_still"], "note": "Proved in every arithmetic, with a witness in double precision whose displacement changes."},
{"property": "C116", "status": "proved", "theorems": ["C116_vector", "C116_vector_rate", "C116_together", "C116_scalar", "C116_scalar_rate", "C116_binary64", "C116_binary64_rate", "C116_binary64_scalar", "C116_minus_zero", "C116_binary64_scalar_rate"], "note": "Proved for both controllers and both ways of computing a command, in exact arithmetic and in double precision; C116_together and C116_minus_zero show that limiting the axes together and the two zeros must be excluded."},
{"property": "C117", "status": "proved", "theorems": ["C117_acceleration", "C117_velocity", "C117_position", "C117_trajectory", "C117_simulator", "C117_upside_down", "C117_binary64_acceleration", "C117_binary64_velocity", "C117_binary64_position", "C117_binary64_trajectory"], "note": "Proved for accelerations, velocities, positions, trajectories and the position reference of the simulator in exact arithmetic, and for accelerations, velocities, positions and trajectories in double precision; C117_upside_down shows that the attitude matters."},
{"property": "C118", "status": "proved", "theorems": ["C118_x", "C118_plus", "C118_simulator", "C118_rows", "C118_binary64", "C118_one_sided"], "note": "Proved for the two ready-made quadrotors with the exact shares, for every allocation with non-negative thrust shares in exact arithmetic and in double precision, and for the thrust reference of the simulator; C118_one_sided shows that the layout matters."},
{"property": "C119", "status": "proved", "theorems": ["C119_requested", "C119_simulator", "C119_rotor_slows", "C119_binary64", "C119_rows", "C119_simulators"], "note": "Proved for the two ready-made quadrotors in exact arithmetic; for measured rates also with any number of rotors in terms of the shares of the allocation, in exact arithmetic (C119_rows, C119_simulators) and in double precision (C119_binary64). C119_rotor_slows shows why the request is stated for the torque and not rotor by rotor."}
]}
