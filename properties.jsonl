{"id": "C01", "title": "Rotor speeds never leave their limits", "statement": "After any Dynamics step that returns normally, every rotor speed reported in the state lies between that rotor's min_speed and max_speed, whatever actuation vector (including out-of-range or negative commands) was given and whatever the speeds were before; a step on an accepted parameter set never calls std::clamp with lower bound above upper bound.", "quantifier": "every accepted parameter set, every state, actuation, dt, external force, noise draw and every sequence of steps, in any arithmetic whose < is asymmetric (exact reals and IEEE doubles)", "why_tests_cant": "The limit has to hold for every command and every history, including commands and rounding patterns nobody samples.", "anchors": ["multirotor_simulator/multirotor_dynamic_model/dynamics.hpp:Dynamics::process_euler_explicit", "multirotor_simulator/multirotor_dynamic_model/dynamics.hpp:Dynamics::clamp_motors"]}
{"id": "C02", "title": "Vehicle orientation stays a unit quaternion", "statement": "Starting from any non-zero orientation, after each step of positive length the reported orientation has norm exactly one, and the step never divides by a zero norm, for every angular velocity and step length. In double arithmetic: from an orientation whose squared length is between 1/2 and 3/2, with finite positive steps and body rates below 2^400 rad/s, after every non-empty run the four components are finite and the squared length is within 2^-49 of one, however long the run.", "quantifier": "every state with non-zero quaternion, every angular velocity, dt, command and noise, every number of steps (exact arithmetic); every run of finite steps with bounded rates (binary64)", "why_tests_cant": "Tests compare a few steps within a tolerance; drift and degenerate norm need an argument over all inputs and all histories.", "anchors": ["multirotor_simulator/multirotor_dynamic_model/dynamics.hpp:Dynamics::process_euler_explicit", "multirotor_simulator/multirotor_dynamic_model/common/utils.hpp:get_quaternion_derivative"]}
{"id": "C03", "title": "A non-positive time step is rejected without side effects", "statement": "Calling the Dynamics step with dt <= 0 throws std::invalid_argument and leaves state, model (including noise state) untouched; with dt > 0 it never throws.", "quantifier": "every dt, state, model, command", "why_tests_cant": "A test checks that one call throws, not that nothing else changed, nor that no positive dt can throw.", "anchors": ["multirotor_simulator/multirotor_dynamic_model/dynamics.hpp:Dynamics::process_euler_explicit"]}
{"id": "C04", "title": "Long steps are split into 10 ms sub-steps that add up to dt", "statement": "A step of dt > 0.01 s has the same effect as consecutive 0.01 s steps whose total is dt.", "quantifier": "every dt > 0.01, state, model, command", "why_tests_cant": "Depends on how dt/0.01 rounds and on the loop bound for every dt, including ones nobody tries such as 0.015, 0.07, 1e8 and infinity.", "anchors": ["multirotor_simulator/multirotor_dynamic_model/dynamics.hpp:Dynamics::process_euler_explicit", "multirotor_simulator/multirotor_dynamic_model/dynamics.hpp:LOWEST_UPDATE_FREQUENCY"]}
{"id": "C05", "title": "Free fall accelerates at the configured gravity for every mass", "statement": "With rotors stopped, no drag, no noise and no external force, the reported linear acceleration equals the configured gravity vector whatever the vehicle mass (docs/Dynamics.md: F_g = m g).", "quantifier": "every mass > 0, gravity vector, state with stopped rotors", "why_tests_cant": "The test suite and examples only use mass 1.0, where the error is invisible.", "anchors": ["multirotor_simulator/multirotor_dynamic_model/dynamics.hpp:Dynamics::get_vehicle_linear_velocity_derivative", "multirotor_simulator/multirotor_dynamic_model/model.hpp:Model::get_gravity", "docs/Dynamics.md"]}
{"id": "C06", "title": "Translational step is Newton's law integrated by explicit Euler", "statement": "After a step of at most 0.01 s the reported force equals the rotated rotor thrust plus gravity term plus drag plus noise plus external force, acceleration equals force divided by mass, velocity grows by acceleration*dt, and position grows by the old velocity*dt.", "quantifier": "every state, accepted model with non-zero mass, command, external force, noise, dt in (0,0.01]", "why_tests_cant": "An exact equation over all real inputs; tests check isolated numbers.", "anchors": ["multirotor_simulator/multirotor_dynamic_model/dynamics.hpp:Dynamics::process_euler_explicit", "multirotor_simulator/multirotor_dynamic_model/model.hpp:Model::get_force_thrust_by_motors", "multirotor_simulator/multirotor_dynamic_model/model.hpp:Model::get_drag_force"]}
{"id": "C07", "title": "Rotational step is Euler's rigid-body equation", "statement": "After a step of at most 0.01 s, inertia * angular acceleration = rotor torque + aerodynamic torque + torque noise - omega x (I omega), angular velocity grows by it times dt, and the quaternion follows the half-Hamilton-product rule with the old body rates.", "quantifier": "every state, accepted model with invertible inertia, command, noise, dt in (0,0.01]", "why_tests_cant": "Exact vector equation for all inertia tensors and rates.", "anchors": ["multirotor_simulator/multirotor_dynamic_model/dynamics.hpp:Dynamics::get_vehicle_angular_velocity_derivative", "multirotor_simulator/multirotor_dynamic_model/model.hpp:Model::get_torque_by_motors"]}
{"id": "C08", "title": "The moment noise parameter drives the torque noise", "statement": "Changing moment_process_noise_auto_correlation changes the noise applied to the rotation, and the torque noise is the model's stochastic moment, not its stochastic force.", "quantifier": "every model, state, step and noise sequence", "why_tests_cant": "Noise is random; tests cannot tell which of two random draws was used.", "anchors": ["multirotor_simulator/multirotor_dynamic_model/dynamics.hpp:Dynamics::process_euler_explicit", "multirotor_simulator/multirotor_dynamic_model/model.hpp:Model::get_stochastic_moment", "multirotor_simulator/multirotor_dynamic_model/model.hpp:Model::set_stochastic_noise"]}
{"id": "C09", "title": "Noise off means reproducible", "statement": "With noise disabled the step draws nothing from the random generator and the resulting trajectory is the same for every seed and generator; with noise enabled but zero auto-correlations the trajectory equals the noise-free one.", "quantifier": "every random generator, seed, state, model, command sequence and step length sequence", "why_tests_cant": "Quantifies over all random streams.", "anchors": ["multirotor_simulator/multirotor_dynamic_model/model.hpp:Model::set_stochastic_noise", "multirotor_simulator/multirotor_dynamic_model/model.hpp:Model::disable_stochastic_noise", "multirotor_simulator/multirotor_dynamic_model/dynamics.hpp:Dynamics::process_euler_explicit"]}
{"id": "C10", "title": "Rotors approach the command as a first-order lag without overshoot", "statement": "For a constant in-range command and 0 < dt <= time_constant, each step multiplies the rotor speed error by exactly 1 - dt/tau, so the speed moves monotonically toward the command, never overshoots, and the error tends to zero.", "quantifier": "every rotor, command within limits, start speed within limits, tau > 0, 0 < dt <= min(tau, 0.01), any number of steps", "why_tests_cant": "Convergence over unboundedly many steps.", "anchors": ["multirotor_simulator/multirotor_dynamic_model/dynamics.hpp:Dynamics::get_motors_angular_velocity_derivative"]}
{"id": "C11", "title": "Rejected parameters leave the model unchanged", "statement": "Updating a model with a parameter set that fails validation changes nothing observable; updating with an accepted set makes every later result depend only on the new set.", "quantifier": "every old model, every parameter set", "why_tests_cant": "Every way of being invalid, and every getter, must be covered.", "anchors": ["multirotor_simulator/multirotor_dynamic_model/model.hpp:Model::update_params", "multirotor_simulator/multirotor_dynamic_model/model.hpp:Model::check_params"]}
{"id": "C12", "title": "Accepted parameters are physically meaningful", "statement": "A parameter set that passes validation has positive mass, positive-definite inertia, positive rotor time constants and one rotor entry per rotor, so that a step never divides by zero or indexes out of range.", "quantifier": "every parameter set", "why_tests_cant": "Boundary and sign combinations (zero mass, two negative inertia eigenvalues, NaN, wrong vector length) are exactly what validation tests skip.", "anchors": ["multirotor_simulator/multirotor_dynamic_model/model.hpp:Model::check_params"]}
{"id": "C13", "title": "The mixer matrix getter returns the mixer in use", "statement": "After construction or update with valid parameters, get_mixer_matrix() returns the matrix whose rows are the force and torque maps used by the model.", "quantifier": "every accepted parameter set", "why_tests_cant": "Reading an unwritten member returns arbitrary memory; a test may pass by luck.", "anchors": ["multirotor_simulator/multirotor_dynamic_model/model.hpp:Model::update_params", "multirotor_simulator/multirotor_dynamic_model/model.hpp:Model::get_mixer_matrix"]}
{"id": "C14", "title": "Equal rotor speeds give pure vertical thrust", "statement": "For the X-quad, +-quad and hexacopter helper configurations, spinning all rotors at the same speed w (any sign) produces force n*kf*w*|w| along body z, no lateral force and zero torque.", "quantifier": "every thrust/torque coefficient, arm length, speed", "why_tests_cant": "Algebraic identity over all coefficients and speeds.", "anchors": ["multirotor_simulator/multirotor_dynamic_model/model.hpp:Model::create_quadrotor_x_config", "multirotor_simulator/multirotor_dynamic_model/model.hpp:Model::create_quadrotor_plus_config", "multirotor_simulator/multirotor_dynamic_model/model.hpp:Model::create_hexacopter_config", "multirotor_simulator/multirotor_dynamic_model/model.hpp:Model::compute_mixer_matrix_6D"]}
{"id": "C15", "title": "The mixer computes the physical wrench of the rotors", "statement": "For any rotor placement and rotation matrices, mixer times signed squared speeds equals the sum over rotors of thrust along the rotor axis, its lever-arm moment and its reaction moment; the 4-row mixer equals rows 3-6 of the 6-row mixer when rotor axes are vertical.", "quantifier": "every number of rotors, pose, coefficients, speeds", "why_tests_cant": "Arbitrary rotor count and geometry.", "anchors": ["multirotor_simulator/multirotor_dynamic_model/model.hpp:Model::compute_mixer_matrix_4D", "multirotor_simulator/multirotor_dynamic_model/model.hpp:Model::compute_mixer_matrix_6D", "multirotor_simulator/multirotor_dynamic_model/model.hpp:Model::get_force_thrust_by_motors"]}
{"id": "C16", "title": "Drag and aerodynamic moment never add energy", "statement": "The power of the drag force is never positive and componentwise opposes velocity; the power of the aerodynamic moment is never positive when its coefficient matrix is positive semidefinite; both vanish at rest.", "quantifier": "every velocity, angular velocity, coefficient", "why_tests_cant": "An inequality over all vectors.", "anchors": ["multirotor_simulator/multirotor_dynamic_model/model.hpp:Model::get_drag_force", "multirotor_simulator/multirotor_dynamic_model/model.hpp:Model::get_aerodynamic_moment"]}
{"id": "C17", "title": "Hover is a fixed point", "statement": "A level, resting vehicle with no noise whose rotors already spin at the commanded equal speed with total thrust equal to the model's weight term stays exactly where it is, for every number of steps.", "quantifier": "every symmetric configuration, position, yaw, mass, any number and length of steps", "why_tests_cant": "Unbounded horizon.", "anchors": ["multirotor_simulator/multirotor_dynamic_model/dynamics.hpp:Dynamics::process_euler_explicit"]}
{"id": "C18", "title": "Signed square and signed root are inverse", "statement": "squared_keep_sign and sqrt_keep_sign are inverse to each other in both directions, odd and strictly increasing, so that converting between rotor speed and thrust loses nothing. On doubles of ordinary size the root of the square is the number itself, and the square of the root is within four units of 2^-53 of it.", "quantifier": "every real vector of any length; on doubles every zero or magnitude from 2^-511 to 2^499 (root of the square) and from 2^-900 to 2^900 (square of the root)", "why_tests_cant": "All reals, both directions.", "anchors": ["multirotor_simulator/multirotor_dynamic_model/common/utils.hpp:squared_keep_sign", "multirotor_simulator/multirotor_dynamic_model/common/utils.hpp:sqrt_keep_sign"]}
{"id": "C19", "title": "Physics does not depend on where the vehicle is", "statement": "Shifting the initial position by any vector shifts the whole trajectory by that vector and changes nothing else.", "quantifier": "every shift, state, model, command and noise sequence", "why_tests_cant": "Relational property between two unbounded runs.", "anchors": ["multirotor_simulator/multirotor_dynamic_model/dynamics.hpp:Dynamics::process_euler_explicit"]}
{"id": "C20", "title": "PID output respects its saturation limits after any history", "statement": "While output saturation is enabled, every value returned by compute_control lies within the configured limits: for independent per-axis saturation and the scalar PID for all limits the setter accepts; for proportional saturation when each axis's range contains zero.", "quantifier": "every gain set, every sequence of calls with any dt and error", "why_tests_cant": "Any history of integral/derivative state.", "anchors": ["pid_controller/include/pid_controller/pid.hpp:PID::saturate_output", "pid_controller/include/pid_controller/pid.hpp:PID::compute_control", "pid_controller/include/pid_controller/pid_1d.hpp:PID::saturate_output"]}
{"id": "C21", "title": "Proportional saturation keeps the direction of the output", "statement": "Proportional saturation returns the unsaturated vector multiplied by one common factor in [0,1], 1 when no limit is exceeded.", "quantifier": "every vector and every accepted pair of limits", "why_tests_cant": "The property fails only for unusual limit choices (range not containing zero).", "anchors": ["pid_controller/include/pid_controller/pid.hpp:PID::saturate_output"]}
{"id": "C22", "title": "Anti-windup bounds the integral after any history", "statement": "With a non-zero anti-windup constant, the accumulated error of each axis never exceeds the constant in magnitude, so the integral contribution is bounded by Ki*antiwindup.", "quantifier": "every gain set, every sequence of calls with any dt and error", "why_tests_cant": "Unbounded histories.", "anchors": ["pid_controller/include/pid_controller/pid.hpp:PID::compute_integral_contribution", "pid_controller/include/pid_controller/pid_1d.hpp:PID::compute_integral_contribution"]}
{"id": "C23", "title": "Reset forgets the past", "statement": "After reset_controller, the controller returns, for every later sequence of calls, exactly what a freshly built controller with the same settings returns.", "quantifier": "every past, every future call sequence", "why_tests_cant": "Relates two infinite families of histories.", "anchors": ["pid_controller/include/pid_controller/pid.hpp:PID::reset_controller", "pid_controller/include/pid_controller/pid.hpp:PID::compute_control", "pid_controller/include/pid_controller/pid_1d.hpp:PID::reset_controller"]}
{"id": "C24", "title": "No derivative kick on the first call", "statement": "The first compute_control after construction or reset has zero derivative contribution: it returns Kp*e + Ki*e*dt, saturated, for any error and any positive dt.", "quantifier": "every gain set, dt, error, prior history", "why_tests_cant": "All errors and prior histories.", "anchors": ["pid_controller/include/pid_controller/pid.hpp:PID::compute_control", "pid_controller/include/pid_controller/pid.hpp:PID::compute_derivative_contribution_by_deriving"]}
{"id": "C25", "title": "The integral is reset when the saturated error changes sign", "statement": "With reset_integral_flag on, when the integral sits at its anti-windup limit and the error changes sign, the accumulated error restarts from zero.", "quantifier": "every history with the flag on and a positive anti-windup constant", "why_tests_cant": "Whether the branch is ever reachable is a question about all histories.", "anchors": ["pid_controller/include/pid_controller/pid.hpp:PID::compute_integral_contribution", "pid_controller/include/pid_controller/pid_1d.hpp:PID::compute_integral_contribution"]}
{"id": "C26", "title": "Parameters read back can be written back", "statement": "Writing the parameters returned by get_params back with update_pid_params leaves the behaviour of the controller unchanged.", "quantifier": "every reachable controller configuration", "why_tests_cant": "Depends on the order of earlier setter calls.", "anchors": ["pid_controller/include/pid_controller/pid.hpp:PID::get_params", "pid_controller/include/pid_controller/pid.hpp:PID::update_pid_params", "pid_controller/include/pid_controller/pid.hpp:PID::disable_output_saturation"]}
{"id": "C27", "title": "A rejected saturation request changes no limits", "statement": "If set_output_saturation rejects the limits, the limits reported afterwards are those before the call and saturation is off.", "quantifier": "every controller, every pair of limit vectors", "why_tests_cant": "Only a later invalid axis after an earlier valid one exposes it.", "anchors": ["pid_controller/include/pid_controller/pid.hpp:PID::set_output_saturation"]}
{"id": "C28", "title": "A zero time step cannot corrupt the controller", "statement": "Calling compute_control with dt = 0 returns a finite value for finite inputs and does not affect later calls.", "quantifier": "every controller state, every finite error, IEEE double arithmetic", "why_tests_cant": "Needs IEEE semantics of 0/0 and NaN propagation over every later history.", "anchors": ["pid_controller/include/pid_controller/pid.hpp:PID::compute_derivative_contribution_by_deriving", "pid_controller/include/pid_controller/pid_1d.hpp:PID::compute_control"]}
{"id": "C29", "title": "Unsaturated PID equals the textbook sum", "statement": "Without saturation, anti-windup or integral reset, the n-th output equals Kp*e_n + Ki*sum(e_i*dt_i) + Kd*d_n with d_n the alpha-filtered difference quotient, over the calls since the last reset.", "quantifier": "every gain set and every call sequence", "why_tests_cant": "Closed form over unbounded histories.", "anchors": ["pid_controller/include/pid_controller/pid.hpp:PID::compute_control", "pid_controller/include/pid_controller/pid_1d.hpp:PID::compute_control"]}
{"id": "C30", "title": "Vector PID axes are independent scalar PIDs", "statement": "With per-axis saturation, each axis of the vector PID produces exactly what a scalar PID with that axis's gains and limits produces, for every call sequence.", "quantifier": "every configuration and history", "why_tests_cant": "Equivalence of two implementations over all histories.", "anchors": ["pid_controller/include/pid_controller/pid.hpp:PID", "pid_controller/include/pid_controller/pid_1d.hpp:PID"]}
{"id": "C31", "title": "Commanded collective thrust is never negative", "statement": "For every desired acceleration, attitude and yaw, the thrust produced by the acceleration-to-acro conversion is never below zero, and when it would be, thrust and body rates are both zero.", "quantifier": "every acceleration, orientation, yaw, any arithmetic with asymmetric < (including IEEE doubles)", "why_tests_cant": "Inverted and tumbling attitudes are rarely tested.", "anchors": ["multirotor_simulator/multirotor_controllers/multirotor_controllers.hpp:Controller::convert_linear_acceleration_to_acro"]}
{"id": "C32", "title": "Desired attitude is a rotation aligned with thrust and yaw", "statement": "When the required thrust is non-zero and not parallel to the heading direction, the desired frame is orthonormal and right-handed, its z axis is the thrust direction and its y axis is horizontal-heading orthogonal; in the degenerate cases the commanded rates are still defined.", "quantifier": "every acceleration and yaw", "why_tests_cant": "Singular directions form a measure-zero set no sampling hits.", "anchors": ["multirotor_simulator/multirotor_controllers/controllers/acro_controller.hpp:AcroController::yaw_angle_to_angular_velocity"]}
{"id": "C33", "title": "Attitude control is at rest exactly when aligned", "statement": "If the current attitude equals the desired one the commanded body rate is zero; for a pure yaw error psi at level hover the command is -kp_z*sin(psi) about z and zero elsewhere, hence always turning toward the reference by the short way.", "quantifier": "every attitude, acceleration, yaw, gain", "why_tests_cant": "All angles, including near pi.", "anchors": ["multirotor_simulator/multirotor_controllers/controllers/acro_controller.hpp:AcroController::yaw_angle_to_angular_velocity"]}
{"id": "C34", "title": "Motor allocation is exact", "statement": "For the X and + quad configurations with non-zero coefficients and arms, applying the commanded rotor speeds to the vehicle model produces exactly the requested thrust and torque.", "quantifier": "every thrust, torque request, rate and gain; every non-degenerate geometry", "why_tests_cant": "A round trip through two classes over all requests, including negative ones.", "anchors": ["multirotor_simulator/multirotor_controllers/controllers/indi_controller.hpp:IndiController::acro_to_motor_angular_velocity", "multirotor_simulator/multirotor_controllers/controllers/indi_controller.hpp:IndiController::compute_quadrotor_mixer_matrix_inverse", "multirotor_simulator/multirotor_dynamic_model/model.hpp:Model::compute_mixer_matrix_6D"]}
{"id": "C35", "title": "Cascade at its set point commands hover", "statement": "For a fresh controller at its reference (position, zero velocity, level attitude, same yaw), the commanded thrust is mass*|g| along body z, zero rates, and the motor command is the hover speed on each rotor.", "quantifier": "every set point, yaw, gains, mass", "why_tests_cant": "All gains and set points.", "anchors": ["multirotor_simulator/multirotor_controllers/multirotor_controllers.hpp:Controller::compute_position_control", "multirotor_simulator/multirotor_controllers/multirotor_controllers.hpp:Controller::compute_velocity_control"]}
{"id": "C36", "title": "Yaw-rate mode never divides by zero", "statement": "Converting a yaw rate into a yaw reference uses the current yaw when the yaw gain is zero, and otherwise yields a reference whose proportional response kp*(ref - yaw) equals the requested rate.", "quantifier": "every rate, yaw, gain", "why_tests_cant": "All gains including zero.", "anchors": ["multirotor_simulator/multirotor_controllers/multirotor_controllers.hpp:Controller::yaw_rate_to_angle"]}
{"id": "C37", "title": "Trajectory controller honours its acceleration limits", "statement": "With output saturation enabled in the trajectory controller, the commanded acceleration stays within the configured limits.", "quantifier": "every reference and state", "why_tests_cant": "Fails only when feed-forward and feedback add up beyond the limit.", "anchors": ["multirotor_simulator/multirotor_controllers/controllers/trajectory_controller.hpp:TrajectoryController::trajectory_to_linear_acceleration"]}
{"id": "C38", "title": "The acro controller reports the thrust it computed", "statement": "AcroController::get_desired_thrust returns the thrust vector of the last conversion.", "quantifier": "every call history", "why_tests_cant": "A shadowed member compiles and passes any test that does not read it back.", "anchors": ["multirotor_simulator/multirotor_controllers/controllers/acro_controller.hpp:AcroController::acceleration_to_thrust", "multirotor_simulator/multirotor_controllers/controllers/acro_controller.hpp:AcroController::get_desired_thrust"]}
{"id": "C39", "title": "Noise-free IMU reads the true values in its own frame", "statement": "With zero noise variances and bias auto-correlations, every IMU reading is the true angular velocity and force rotated by the inverse mounting orientation, for every update sequence and every random stream; bias stays zero.", "quantifier": "every mounting orientation, input sequence, random generator", "why_tests_cant": "All random streams and orientations.", "anchors": ["multirotor_simulator/imu_simulator/imu.hpp:IMU::update", "multirotor_simulator/imu_simulator/imu.hpp:IMU::process_measurement", "multirotor_simulator/imu_simulator/imu.hpp:IMU::process_bias"]}
{"id": "C40", "title": "IMU error model", "statement": "Each positive-dt update consumes exactly twelve random draws; bias after n updates is the initial bias plus the sum of sqrt(autocorr/dt)*N*dt, and the reading is truth plus bias plus sqrt(variance)*N; an update with dt <= 0 changes nothing.", "quantifier": "every parameter set, random generator, update sequence", "why_tests_cant": "Closed form over unbounded histories and all random streams.", "anchors": ["multirotor_simulator/imu_simulator/imu.hpp:IMU::process_bias", "multirotor_simulator/imu_simulator/imu.hpp:IMU::process_measurement", "multirotor_simulator/imu_simulator/imu.hpp:IMU::update"]}
{"id": "C41", "title": "Reading an IMU measurement is memory-safe", "statement": "IMU::get_measurement() returns values that remain valid after the call.", "quantifier": "every IMU", "why_tests_cant": "A dangling reference often still reads the right bytes in a test.", "anchors": ["multirotor_simulator/imu_simulator/imu.hpp:IMU::get_measurement"]}
{"id": "C42", "title": "Odometry integrates a unit orientation and filtered rates", "statement": "After each update orientation has unit norm; each filtered signal is a convex combination of the reading and the previous value, so it stays within the range of readings seen; velocity and position follow semi-implicit Euler. In double arithmetic too: the orientation stays within 2^-49 of unit squared length and the reported rates never exceed a power of two that bounds the gyroscope readings, however many updates.", "quantifier": "every alpha in [0,1], reading sequence, dt sequence", "why_tests_cant": "Unbounded histories.", "anchors": ["multirotor_simulator/imu_simulator/inertial_odometry.hpp:InertialOdometry::update", "multirotor_simulator/imu_simulator/inertial_odometry.hpp:InertialOdometry::integrate_measurement", "multirotor_simulator/imu_simulator/inertial_odometry.hpp:InertialOdometry::filter_measurement"]}
{"id": "C43", "title": "The IMU receives the force in the body frame", "statement": "update_imu passes the total force expressed in the body frame (inverse orientation applied to the world-frame force), and odometry rotates it back to the world.", "quantifier": "every orientation and force", "why_tests_cant": "With near-identity orientation both directions agree; only composition hides it.", "anchors": ["multirotor_simulator/multirotor_simulator.hpp:Simulator::update_imu", "multirotor_simulator/imu_simulator/inertial_odometry.hpp:InertialOdometry::integrate_measurement"]}
{"id": "C44", "title": "The vehicle is never below an enabled floor", "statement": "After every update_dynamics that returns normally with floor collision enabled, the reported height is not below the floor height, for every history of API calls before it.", "quantifier": "every API call history, arithmetic including IEEE doubles", "why_tests_cant": "All histories, including floor raised above the vehicle.", "anchors": ["multirotor_simulator/multirotor_simulator.hpp:Simulator::update_dynamics", "multirotor_simulator/multirotor_simulator.hpp:Simulator::enable_floor_collision"]}
{"id": "C45", "title": "Touching the floor stops the vehicle and only that", "statement": "On contact velocities and accelerations become zero, height becomes the floor height, horizontal position, attitude, rotor state and reported force/torque are kept, IMU and odometry are reset, the external force is cleared, and without contact none of these side effects occur.", "quantifier": "every state and command", "why_tests_cant": "Frame conditions over the entire object.", "anchors": ["multirotor_simulator/multirotor_simulator.hpp:Simulator::update_dynamics"]}
{"id": "C46", "title": "A disarmed vehicle commands no rotor speed", "statement": "From construction or disarm until the next arm, every update_controller leaves the commanded rotor speeds zero and changes no controller state, whatever mode, references and time steps are used in between; consequently rotor speeds fall to zero.", "quantifier": "every API call history", "why_tests_cant": "All interleavings of setters, mode changes and updates.", "anchors": ["multirotor_simulator/multirotor_simulator.hpp:Simulator::update_controller", "multirotor_simulator/multirotor_simulator.hpp:Simulator::arm", "multirotor_simulator/multirotor_simulator.hpp:Simulator::disarm"]}
{"id": "C47", "title": "Switching control mode holds the vehicle where it is", "statement": "set_control_mode with a new mode sets position and yaw references to the current ones and zeroes velocity, acceleration, thrust and rate references; with the same mode it changes nothing; the controllers start the new mode without memory of the old one.", "quantifier": "every simulator state, every pair of modes", "why_tests_cant": "All states and mode pairs.", "anchors": ["multirotor_simulator/multirotor_simulator.hpp:Simulator::set_control_mode"]}
{"id": "C48", "title": "HOVER is POSITION hold", "statement": "For every history, a simulator in HOVER behaves identically to one in POSITION with the same references.", "quantifier": "every simulator state, update sequence", "why_tests_cant": "Relational over unbounded runs.", "anchors": ["multirotor_simulator/multirotor_simulator.hpp:Simulator::update_controller"]}
{"id": "C49", "title": "Each update touches only its own part", "statement": "update_controller never changes the physical state, sensors or odometry; update_imu and update_inertial_odometry never change the physical state or controller; update_dynamics never changes references, modes or controller.", "quantifier": "every state and argument", "why_tests_cant": "Frame conditions over the entire object.", "anchors": ["multirotor_simulator/multirotor_simulator.hpp:Simulator::update_dynamics", "multirotor_simulator/multirotor_simulator.hpp:Simulator::update_controller", "multirotor_simulator/multirotor_simulator.hpp:Simulator::update_imu", "multirotor_simulator/multirotor_simulator.hpp:Simulator::update_inertial_odometry"]}
{"id": "C50", "title": "A failed dynamics update leaves the simulator unchanged", "statement": "If update_dynamics throws (dt <= 0) the simulator is exactly as before.", "quantifier": "every simulator state, dt <= 0", "why_tests_cant": "Needs comparison of all private members at the throw point.", "anchors": ["multirotor_simulator/multirotor_simulator.hpp:Simulator::update_dynamics"]}
{"id": "C51", "title": "Euler angles reproduce the attitude", "statement": "For every non-zero quaternion away from gimbal lock, the roll/pitch/yaw reported reproduce the rotation R = Rz(yaw)Ry(pitch)Rx(roll); pitch is in [-pi/2,pi/2], roll and yaw in [-pi,pi]; scaling the quaternion does not change them.", "quantifier": "every quaternion", "why_tests_cant": "All attitudes, all quadrants.", "anchors": ["multirotor_simulator/multirotor_dynamic_model/common/state.hpp:quaternion_to_Euler", "multirotor_simulator/imu_simulator/inertial_odometry.hpp:InertialOdometry"]}
{"id": "C52", "title": "Printed states can be split into their values", "statement": "The text operator<< writes for the state of a vehicle with N rotors (N at least 1) splits at commas into exactly the printed values of position, roll/pitch/yaw, velocity, angular velocity, linear and angular acceleration, force, torque, N rotor speeds and N rotor accelerations, in that order (24+2N fields); the text of the inertial odometry likewise into its 15 values; the labelled print helpers separate every value from the next.", "quantifier": "every state and odometry, every number of rotors, every number formatting that writes no comma, any arithmetic", "why_tests_cant": "A missing separator in one configuration still produces plausible text; the claim is about every state, every N and every formatting.", "anchors": ["multirotor_simulator/multirotor_dynamic_model/common/state.hpp:operator<<", "multirotor_simulator/multirotor_dynamic_model/common/state.hpp:print_actuators", "multirotor_simulator/multirotor_dynamic_model/common/state.hpp:print_state", "multirotor_simulator/imu_simulator/inertial_odometry.hpp:operator<<", "multirotor_simulator/imu_simulator/inertial_odometry.hpp:print_state"]}
{"id": "C53", "title": "A complete vehicle never runs into undefined behaviour", "statement": "For every model built or updated through the public interface with one motor entry per rotor, every state and actuation vector with one entry per rotor, and every time step above zero and up to INT_MAX sub-steps, the Dynamics step returns normally: no clamp with crossed bounds, no index out of range, no exception.", "quantifier": "all reachable models, states, actuation vectors, external forces, noise settings and 0 < dt <= INT_MAX*0.01", "why_tests_cant": "undefined behaviour on some input is invisible to a test that samples other inputs", "anchors": ["multirotor_simulator/multirotor_dynamic_model/dynamics.hpp: process_euler_explicit", "multirotor_simulator/multirotor_dynamic_model/model.hpp: update_params"]}
{"id": "C54", "title": "A requested yaw rate becomes the commanded body yaw rate", "statement": "At level attitude with a vertical thrust demand, converting a yaw rate to a yaw reference and feeding it to the acceleration controller commands exactly that rate about the body z axis.", "quantifier": "every rate, heading, non-zero yaw gain", "why_tests_cant": "Small rates agree to first order, so sampled rates pass within tolerance; large ones wrap through the sine.", "anchors": ["multirotor_simulator/multirotor_controllers/multirotor_controllers.hpp:Controller::yaw_rate_to_angle", "multirotor_simulator/multirotor_controllers/controllers/acro_controller.hpp:AcroController::yaw_angle_to_angular_velocity"]}
{"id": "C55", "title": "Each control call records its set points and touches only its own loops", "statement": "A control call records the references it was given and those it derives from them in the Controller's getters, feeds each PID of its cascade the error between reference and measurement exactly once, and leaves the PIDs, references and settings of the other loops unchanged.", "quantifier": "every controller state, every argument, any arithmetic", "why_tests_cant": "Cross-talk between loops shows only in later calls of other modes.", "anchors": ["multirotor_simulator/multirotor_controllers/multirotor_controllers.hpp:Controller::compute_acro_control", "multirotor_simulator/multirotor_controllers/multirotor_controllers.hpp:Controller::compute_acceleration_control", "multirotor_simulator/multirotor_controllers/multirotor_controllers.hpp:Controller::compute_velocity_control", "multirotor_simulator/multirotor_controllers/multirotor_controllers.hpp:Controller::compute_position_control", "multirotor_simulator/multirotor_controllers/multirotor_controllers.hpp:Controller::compute_trajectory_control"]}
{"id": "C56", "title": "Reseeding and resetting the IMU reproduces its noise", "statement": "After set_random_seed and reset, every later reading depends only on the seed, the current settings and the inputs, not on what the IMU did before.", "quantifier": "every two histories with equal settings, every seed, every following call sequence, any arithmetic", "why_tests_cant": "The normal distribution caches every second value across calls, so whether history leaks depends on the parity of all draws ever made.", "anchors": ["multirotor_simulator/imu_simulator/imu.hpp:IMU::set_random_seed", "multirotor_simulator/imu_simulator/imu.hpp:IMU::reset", "multirotor_simulator/imu_simulator/imu.hpp:IMU::update"]}
{"id": "C57", "title": "Odometry reports the vehicle's acceleration", "statement": "With an ideal IMU, no filtering and a correct attitude estimate, the linear acceleration reported by the inertial odometry after an IMU and an odometry update equals the linear acceleration in the simulator state.", "quantifier": "every vehicle mass, state and force without floor contact", "why_tests_cant": "A test picks one vehicle; the mass of the sample vehicle hides a missing division, and equality must hold for every mass, attitude and force.", "anchors": ["multirotor_simulator/multirotor_simulator.hpp:Simulator::update_imu", "multirotor_simulator/imu_simulator/imu.hpp:IMU::update", "multirotor_simulator/imu_simulator/inertial_odometry.hpp:InertialOdometry::update"]}
{"id": "C58", "title": "IMU mounting does not change the odometry", "statement": "The odometry computed by the simulator does not depend on how the IMU is mounted on the vehicle: with an ideal IMU the reported body rates are those of the vehicle for every mounting orientation.", "quantifier": "every unit mounting quaternion, every angular velocity", "why_tests_cant": "The example uses the identity mounting; the claim quantifies over all rotations.", "anchors": ["multirotor_simulator/imu_simulator/imu.hpp:IMU::update", "multirotor_simulator/imu_simulator/inertial_odometry.hpp:InertialOdometry::update", "multirotor_simulator/multirotor_simulator.hpp:Simulator::update_inertial_odometry"]}
{"id": "C59", "title": "A landed, disarmed vehicle stays where it stands", "statement": "A vehicle standing on the enabled floor with stopped rotors and no process noise keeps its position and attitude under every sequence of calls that neither arms it, moves the floor nor replaces the vehicle.", "quantifier": "every vehicle with downward gravity whose rotors may stop, every floor height, attitude and call history with dynamics steps up to 10 ms", "why_tests_cant": "The history is unbounded and the floor contact logic alternates between free fall and contact; a test sees finitely many steps.", "anchors": ["multirotor_simulator/multirotor_simulator.hpp:Simulator::update_dynamics", "multirotor_simulator/multirotor_simulator.hpp:Simulator::update_controller", "multirotor_simulator/multirotor_simulator.hpp:Simulator::enable_floor_collision"]}
{"id": "C60", "title": "Hover holds the vehicle still", "statement": "A quadrotor started at rest, level, with its rotors at hover speed, controller configured with the mass and gravity of the vehicle, armed and switched to HOVER, keeps position, attitude and zero velocity through any sequence of the periodic updates.", "quantifier": "every built-in quadrotor layout, coefficients, mass, gravity, heading, position, PID gains and update sequence", "why_tests_cant": "Exact equilibrium over every update interleaving and every parameter choice is not observable by sampling.", "anchors": ["multirotor_simulator/multirotor_simulator.hpp:Simulator::update_controller", "multirotor_simulator/multirotor_simulator.hpp:Simulator::update_dynamics", "multirotor_simulator/multirotor_controllers/multirotor_controllers.hpp:Controller::compute_position_control"]}
{"id": "C61", "title": "Each control mode follows only its own references", "statement": "In every mode the commanded rotor speeds and the controller state depend only on the references that mode is documented to follow; other references have no effect, and in motor mode the command is the motor reference itself.", "quantifier": "every simulator state, every pair of reference sets agreeing on the followed ones, every dt", "why_tests_cant": "Non-interference compares all pairs of reference sets.", "anchors": ["multirotor_simulator/multirotor_simulator.hpp:Simulator::update_controller", "multirotor_simulator/multirotor_simulator.hpp:Simulator::set_reference_yaw_angle"]}
{"id": "C62", "title": "The flight log is a well-formed table", "statement": "The CSV file written by the example logger has a header line naming 74 columns, then one line per call to save; every line has exactly 74 comma-separated fields and field i holds the printed value of the quantity column i is named after, whatever the simulator state and references are.", "quantifier": "every sequence of rows (time, four-rotor simulator), every number formatting without commas and line ends", "why_tests_cant": "A column that disappears only for some values shifts the rest of the row silently; the claim covers every state and every log length.", "anchors": ["examples/fly_example.cpp:CsvLogger::save", "examples/fly_example.cpp:CsvLogger::add_double", "examples/fly_example.cpp:CsvLogger::add_vector_row"]}
{"id": "C63", "title": "The example flights visit their references and end", "statement": "For every non-empty list of references, every duration and every positive time step, the velocity, position and yaw-rate example flights never read a reference beyond the end of the list, never stop with an exception, end after the requested duration, and leave a log with one complete row per iteration plus the initial one. Up to any iteration, the calls made are: the mode, the first reference, and then per iteration one round of updates followed, when the share of the current reference is over, by the next reference; the mode and the reference in force are those of the tour.", "quantifier": "every four-rotor simulator reachable through the public interface, every reference list, duration and time step", "why_tests_cant": "Whether the accumulated clock overruns the list depends on rounding of particular durations and list lengths; the shipped configuration is one of the failing ones only at its very last iteration.", "anchors": ["examples/fly_example.cpp:test_velocity_controller", "examples/fly_example.cpp:test_position_controller", "examples/fly_example.cpp:test_position_controller_yaw_rate"]}
{"id": "C64", "title": "The example programs fly a vehicle their controller is set up for", "statement": "For both example programs, with the built-in configuration or with any configuration file whose vehicle passes the parameter check, the simulator that is flown has the configured vehicle, is armed with the floor at the configured height and starts in the configured state, and for the whole flight its controller uses the vehicle's own mass, gravity, inertia and rotor layout: whatever thrust and angular acceleration the controller asks for, the rotor speeds it commands produce exactly that force and torque on the vehicle. No call during the flight is undefined.", "quantifier": "every configuration document with a valid vehicle, the built-in configuration, every sequence of calls that does not replace vehicle or controller", "why_tests_cant": "A copy-paste slip in the two hundred lines that copy parameters shows up only as a slightly worse flight; the claim covers every document and every flight.", "anchors": ["examples/fly_example.cpp:get_simulator", "examples/fly_example.cpp:get_simulation_params_from_yaml", "examples/fly_example.cpp:get_simulation_params_from_code", "examples/trajectory_fly_example/traj_gen_example.cpp:get_simulator"]}
{"id": "C65", "title": "PID settings read back are the ones last set", "statement": "After any sequence of construction, parameter updates, individual setters, resets and control computations, every gain, anti-windup, filter, flag and saturation setting read back from a PID controller is the one given by the last call that sets it; a saturation range that is refused switches saturation off and leaves the proportional flag alone; resets and computations change no setting. While saturation is on, the limits are those of the last accepted range.", "quantifier": "every initial parameter set and every call sequence, vector and scalar controller, every arithmetic", "why_tests_cant": "A setter that also touches a neighbouring setting shows up only for particular call orders.", "anchors": ["pid_controller/include/pid_controller/pid.hpp:PID::update_pid_params", "pid_controller/include/pid_controller/pid.hpp:PID::set_output_saturation"]}
{"id": "C66", "title": "Simulator references stay as requested", "statement": "A reference given to the simulator is the one its getter returns until a call documented to replace it: its own setter, a change of control mode, for thrust, rates and position also arming, and for the yaw angle a controller update in yaw-rate mode. Sensor, odometry, dynamics updates, floor switches, disarming and parameter changes never alter any reference. Arming sets the thrust reference to 9.81, the rates to zero and the height reference to the floor, and changes nothing else.", "quantifier": "every simulator state, every sequence of calls, every arithmetic", "why_tests_cant": "Holds for all interleavings of calls; a stray write shows only in one of them.", "anchors": ["multirotor_simulator/multirotor_simulator.hpp:Simulator::set_reference_position", "multirotor_simulator/multirotor_simulator.hpp:Simulator::arm", "multirotor_simulator/multirotor_simulator.hpp:Simulator::update_controller"]}
{"id": "C67", "title": "Controller parameters reach the loop they are meant for", "statement": "After any sequence of calls on a controller, the mass, gravity, attitude gain, inertia and allocation matrix are those given by the last call that sets them, and the settings of each of the four PID loops (rates, position, velocity, trajectory) are those obtained by applying to it alone exactly the setting calls addressed to it; control computations change no setting.", "quantifier": "every controller parameter set, every call sequence, every number of rotors and arithmetic", "why_tests_cant": "A swap of two loops is invisible while their gains agree, as they do in most configurations.", "anchors": ["multirotor_simulator/multirotor_controllers/multirotor_controllers.hpp:Controller::update_params"]}
{"id": "C68", "title": "Setting a part of the simulator equals building with it", "statement": "Setting the vehicle, controller, IMU or odometry parameters right after construction gives the same simulator, for all later calls, as constructing it with those parameters; at any other moment such a call replaces its own part only and leaves the other parts, the references, mode, arming and floor as they are.", "quantifier": "every parameter set, every later call sequence", "why_tests_cant": "An equality of all future behaviour cannot be tested call by call.", "anchors": ["multirotor_simulator/multirotor_simulator.hpp:Simulator::set_dynamics_params", "multirotor_simulator/multirotor_simulator.hpp:Simulator::set_controller_params", "multirotor_simulator/multirotor_simulator.hpp:Simulator::set_imu_params", "multirotor_simulator/multirotor_simulator.hpp:Simulator::set_inertial_odometry_params"]}
{"id": "C69", "title": "Every number of the configuration file ends up where it says", "statement": "For both example programs and every configuration file whose vehicle passes the parameter check: the simulator starts in the state written in the file, has the sensor noise, odometry filter and vehicle (mass, gravity, inertia, drag, aerodynamic matrix, noise, and an X quadrotor with the written rotor coefficients, limits, time constants and arm lengths) written in the file, and throughout the flight each control loop has the gains, anti-windup and symmetric limit of the section named after it. The velocity/position program uses the defaults for the trajectory loop, the trajectory program for the velocity and position loops, and neither reads a filter constant for the trajectory loop.", "quantifier": "every configuration document with a valid vehicle, every sequence of calls that does not replace vehicle or controller, every arithmetic", "why_tests_cant": "Two swapped fields of the same type compile and fly; the claim fixes every field for every document.", "anchors": ["examples/fly_example.cpp:get_simulation_params_from_yaml", "examples/trajectory_fly_example/traj_gen_example.cpp:get_simulation_params_from_yaml"]}
{"id": "C70", "title": "The motion does not depend on the compass heading", "statement": "Turning the whole scene (position, velocity, attitude, external forces) by a rotation that leaves gravity unchanged and flying the same rotor commands gives the turned flight, state by state, and the turned flight is defined exactly when the original one is.", "quantifier": "every vehicle, start state with unit quaternion, rotation about gravity and noise-free call sequence", "why_tests_cant": "It relates two whole flights for every rotation angle; tests start from one heading.", "anchors": ["multirotor_simulator/multirotor_dynamic_model/dynamics.hpp:Dynamics::process_euler_explicit", "multirotor_simulator/multirotor_dynamic_model/model.hpp:Model::get_drag_force"]}
{"id": "C71", "title": "Under a constant force the vehicle follows the parabola", "statement": "While the total force is constant, in particular with stopped rotors and no drag, the velocity grows exactly by acceleration times elapsed time and the position is the textbook parabola less half a step of acceleration times elapsed time.", "quantifier": "every vehicle, start state, external force, step up to 10 ms and number of steps", "why_tests_cant": "The error of the integrator has to be known for flights of any length.", "anchors": ["multirotor_simulator/multirotor_dynamic_model/dynamics.hpp:Dynamics::process_euler_explicit"]}
{"id": "C72", "title": "A constant body rate turns the vehicle at that rate", "statement": "A vehicle that spins freely about a principal axis keeps its rate, and after a time t its attitude has turned about that axis by rate times t.", "quantifier": "every vehicle without aerodynamic torque, unit start attitude, rate along a principal axis, step up to 10 ms, number of steps", "why_tests_cant": "The attitude error accumulates with the number of steps; tests look at a few steps with a tolerance.", "anchors": ["multirotor_simulator/multirotor_dynamic_model/dynamics.hpp:Dynamics::process_euler_explicit", "multirotor_simulator/multirotor_dynamic_model/dynamics.hpp:Dynamics::get_vehicle_orientation_derivative"]}
{"id": "C73", "title": "Drag slows the vehicle down and never turns it around", "statement": "With stopped rotors and no force along a world axis, the speed along this axis never increases, its sign never changes, and it decays at least as fast as quadratic drag prescribes.", "quantifier": "every vehicle with positive mass and drag, start velocity, step up to 10 ms, number of steps", "why_tests_cant": "A discretised drag can overshoot for fast vehicles; a test uses one speed.", "anchors": ["multirotor_simulator/multirotor_dynamic_model/model.hpp:Model::get_drag_force", "multirotor_simulator/multirotor_dynamic_model/dynamics.hpp:Dynamics::process_euler_explicit"]}
{"id": "C74", "title": "A falling vehicle approaches its terminal speed", "statement": "With stopped rotors and a constant pull along an axis the speed converges to the speed at which drag balances the pull, geometrically and without overshooting it.", "quantifier": "every vehicle with positive mass and drag, start speed in the direction of the pull, step small compared with the drag time scale, number of steps", "why_tests_cant": "Convergence is a statement about infinitely many steps.", "anchors": ["multirotor_simulator/multirotor_dynamic_model/model.hpp:Model::get_drag_force", "multirotor_simulator/multirotor_dynamic_model/model.hpp:Model::get_gravity", "multirotor_simulator/multirotor_dynamic_model/dynamics.hpp:Dynamics::process_euler_explicit"]}
{"id": "C75", "title": "The ready-made layouts are the documented ones", "statement": "A model with the X, + or hexacopter helper layout turns forward rotor speeds and rotor accelerations into exactly the thrust and torques of the matrix printed in docs/CommonConfigurations.md; the hexacopter and the square + layout place their rotors on a regular polygon, counter-clockwise from the front, neighbours turning in opposite directions.", "quantifier": "every coefficient, arm length, rotor speed >= 0 and rotor acceleration", "why_tests_cant": "Six columns of four rows depend on all arguments at once; a wrong sign shows only for unequal speeds.", "anchors": ["multirotor_simulator/multirotor_dynamic_model/model.hpp:Model::create_quadrotor_x_config", "multirotor_simulator/multirotor_dynamic_model/model.hpp:Model::create_quadrotor_plus_config", "multirotor_simulator/multirotor_dynamic_model/model.hpp:Model::create_hexacopter_config", "docs/CommonConfigurations.md"]}
{"id": "C76", "title": "The ready-made layouts can produce every thrust and torque", "statement": "For every thrust and every torque there are signed rotor speeds that produce it; for the two quadrotor layouts they are unique.", "quantifier": "every wrench, every non-zero coefficient and arm length", "why_tests_cant": "Solvability for all right-hand sides is an algebraic fact, not a test case.", "anchors": ["multirotor_simulator/multirotor_dynamic_model/model.hpp:Model::create_quadrotor_x_config", "multirotor_simulator/multirotor_dynamic_model/model.hpp:Model::create_quadrotor_plus_config", "multirotor_simulator/multirotor_dynamic_model/model.hpp:Model::create_hexacopter_config", "multirotor_simulator/multirotor_dynamic_model/model.hpp:Model::get_torque_by_motors"]}
{"id": "C77", "title": "Process noise has the configured density whatever the step", "statement": "A noisy step adds to the force three fresh standard normal samples scaled by sqrt(autocorrelation/dt), takes six draws from the generator (none when noise is off), and therefore with stopped rotors and no drag the velocity is the noise-free one plus a random walk whose increments are the samples scaled by sqrt(autocorrelation*dt)/mass.", "quantifier": "every vehicle, generator, seed, step up to 10 ms and number of steps", "why_tests_cant": "A distribution cannot be observed from single runs; the exact use of each draw can only be proved.", "anchors": ["multirotor_simulator/multirotor_dynamic_model/model.hpp:Model::set_stochastic_noise", "multirotor_simulator/multirotor_dynamic_model/dynamics.hpp:Dynamics::process_euler_explicit"]}
{"id": "C78", "title": "The scripted example flights make the calls they promise and end", "statement": "The example flights that follow no reference list (arming only, full rotor speed, pitching up, trajectory, take-off then trajectory) never stop with an exception or undefined behaviour, end when their time is up and not before, write one complete row per iteration (plus the initial one except when only arming), and amount to an explicit list of calls: rotor speeds 2200 at every update, thrust 15 with a pitch rate of 0.1 until 2 s, or the trajectory point of the latest time before the end of the trajectory.", "quantifier": "every four-rotor simulator reachable through the public interface, every duration, every time step, every trajectory generator", "why_tests_cant": "A test watches a few seconds with one step; whether the accumulated clock ever reaches the end depends on the rounding of every partial sum.", "anchors": ["examples/fly_example.cpp:test_arm", "examples/fly_example.cpp:test_motor_w_ref", "examples/fly_example.cpp:test_indi_controller", "examples/trajectory_fly_example/traj_gen_example.cpp:test_geometric_controller", "examples/trajectory_fly_example/traj_gen_example.cpp:test_trajectory_controller_with_takeoff"]}
{"id": "C79", "title": "A flight of reasonable size never turns into NaN or infinity", "statement": "In double precision, as long as no state of a flight exceeds 2^64 in any position, velocity, rate or rotor speed, every state of the flight (position, orientation, velocity, rates, accelerations, force, torque, rotor speeds and accelerations) consists of finite numbers: a runaway becomes visible as an enormous finite number before any NaN or infinity can appear. Infinite rotor commands are allowed; they are clamped.", "quantifier": "every vehicle of at most 100 rotors reachable through the public interface with parameters up to 2^64 and mass, diagonal inertia and time constants of at least 2^-64, every state, every sequence of calls with or without noise, short or long steps, every generator with bounded draws", "why_tests_cant": "NaN arises from particular combinations of extreme intermediate values (infinity minus infinity, zero times infinity); a test visits a few of them, and one NaN then stays for ever.", "anchors": ["multirotor_simulator/multirotor_dynamic_model/dynamics.hpp:Dynamics::process_euler_explicit", "multirotor_simulator/multirotor_dynamic_model/model.hpp:Model::get_torque_by_motors", "multirotor_simulator/multirotor_dynamic_model/model.hpp:Model::set_stochastic_noise"]}
{"id": "C80", "title": "Resetting the whole controller forgets every past flight", "statement": "After a reset, the answers of a flight controller to every later sequence of calls (rotor speeds, desired thrust and rates, accelerations, velocities) are those of any other controller with the same settings that was reset at that point, whatever the two flew before; in particular they are those of a newly built controller with these settings. Settings changed after the reset act alike on both.", "quantifier": "every two controllers for n rotors reached by any sequence of public calls, equal in their reported settings, every sequence of later calls, any arithmetic (reals and binary64 alike)", "why_tests_cant": "Leftover integral or derivative state shows only after particular earlier flights; there are infinitely many histories and continuations.", "anchors": ["multirotor_simulator/multirotor_controllers/multirotor_controllers.hpp:Controller::reset_controller", "pid_controller/include/pid_controller/pid.hpp:PID::reset_controller", "multirotor_simulator/multirotor_controllers/controllers/indi_controller.hpp:IndiController::reset_controller"]}
{"id": "C81", "title": "A control mode is the chain of its conversions", "statement": "Each control call (acro, acceleration, trajectory, velocity, position) returns exactly the rotor speeds, thrust and rates that a user gets by calling the conversion functions one after the other and handing on their results, and both ways leave a controller with the same answers to every later sequence of calls.", "quantifier": "every controller, every control call with every argument, every later sequence of calls, any arithmetic", "why_tests_cant": "A mode that skips a stage, uses the wrong loop or advances a loop twice agrees on particular inputs and diverges later; there are infinitely many continuations.", "anchors": ["multirotor_simulator/multirotor_controllers/multirotor_controllers.hpp:Controller::compute_position_control", "multirotor_simulator/multirotor_controllers/multirotor_controllers.hpp:Controller::compute_velocity_control", "multirotor_simulator/multirotor_controllers/multirotor_controllers.hpp:Controller::compute_trajectory_control", "multirotor_simulator/multirotor_controllers/multirotor_controllers.hpp:Controller::compute_acceleration_control", "multirotor_simulator/multirotor_controllers/multirotor_controllers.hpp:Controller::convert_position_to_linear_velocity", "multirotor_simulator/multirotor_controllers/multirotor_controllers.hpp:Controller::convert_linear_velocity_to_linear_acceleration"]}
{"id": "C82", "title": "Retuning in flight is as if the new gains had been there from the start", "statement": "Updating the parameters of a PID in flight gives, from then on, exactly the outputs of a PID that was built with the new parameters and flew the same errors and resets, provided anti-windup, filter and sign-reset settings are the same. More generally two PIDs with the same sequence of errors, resets and such settings answer alike after an update, whatever their gains, output limits and given derivatives were. The same holds for each loop of the flight controller.", "quantifier": "every pair of parameter sets, every history, every later sequence of calls, vector and scalar controller, each loop of the flight controller, any arithmetic", "why_tests_cant": "The memory of a controller is only visible through later outputs; a test compares one history with one retuning.", "anchors": ["pid_controller/include/pid_controller/pid.hpp:PID::update_pid_params", "pid_controller/include/pid_controller/pid_1d.hpp:PID::update_params", "pid_controller/include/pid_controller/pid.hpp:PID::compute_control", "multirotor_simulator/multirotor_controllers/multirotor_controllers.hpp:Controller::update_velocity_controller_params"]}
{"id": "C83", "title": "A demanded turn speeds up the rotors that turn the vehicle that way", "statement": "After a reset, a pure roll, pitch or yaw rate demand for a vehicle that is not rotating orders the commanded rotor speeds by the side of the rotors: rolling right makes the left rotors faster, pitching forward the rear ones, yawing left those that turn the vehicle left, and the other way round for negative demands; rotors on the same side get equal speeds, and no demand gives four equal speeds.", "quantifier": "every X or + quadrotor with positive coefficients and arms, positive diagonal inertia, every rate loop with positive proportional and nonnegative integral gain and limits around zero, every thrust, every demand, every positive time step, every earlier flight", "why_tests_cant": "The tests try one thrust, one rate and one set of coefficients; a sign error that shows for other coefficients or thrusts stays unseen.", "anchors": ["multirotor_simulator/multirotor_controllers/controllers/indi_controller.hpp:IndiController::acro_to_motor_angular_velocity", "multirotor_simulator/multirotor_dynamic_model/model.hpp:Model::create_quadrotor_x_config", "multirotor_simulator/multirotor_dynamic_model/model.hpp:Model::create_quadrotor_plus_config"]}
{"id": "C84", "title": "A vehicle that is asked to go up or down goes neither sideways nor turns", "statement": "Start a quadrotor level with its rotors at equal speeds and moving at most vertically, its controller built for its rotors. Then whatever is called afterwards (dynamics, controller, IMU and odometry updates with any time steps, arming and disarming, floors, any control and yaw mode, references over the starting point, vertical velocity and acceleration references, zero rates, equal rotor speeds, the starting heading), the vehicle stays on the vertical through its starting point, keeps exactly its attitude, has no horizontal or angular velocity, and all its rotors turn and are commanded at one speed.", "quantifier": "every X or + quadrotor without process noise, every mass, inertia, drag and gain also where controller and vehicle disagree, every heading, every history of vertical requests of any length", "why_tests_cant": "The tests fly single short flights and look at a few samples; that nothing ever leaks from the vertical axis into the others, through saturation, anti-windup, mode switches, contact and restarts, is about all histories.", "anchors": ["multirotor_simulator/multirotor_simulator.hpp:Simulator::update_controller", "multirotor_simulator/multirotor_simulator.hpp:Simulator::update_dynamics", "multirotor_simulator/multirotor_controllers/multirotor_controllers.hpp:Controller::compute_trajectory_control", "multirotor_simulator/multirotor_dynamic_model/dynamics.hpp:Dynamics::process_euler_explicit", "pid_controller/include/pid_controller/pid.hpp:PID::saturate_output"]}
{"id": "C85", "title": "The controllers report the errors and outputs of the last control call", "statement": "After any history of a PID, its proportional-error getter gives the error of the last control call (settings and resets in between change nothing that is reported), and the contribution getters give gain times error. In the flight controller, the error getter of each loop gives target minus current value of the last request that reached that loop, where an inner loop's target is what the outer loop reports as its output; requests that do not reach a loop leave its report alone; the rate controller reports the thrust asked for along the body z axis and the torque that gives the reported angular acceleration. The derivative-error getter reports the last derivative error that a caller gave, which is stale after a call that lets the PID differentiate by itself.", "quantifier": "every history of calls on every vector or scalar PID over any scalar type; every controller state and request; torque law over the reals", "why_tests_cant": "The tests read the getters after one call on a fresh object; which call a getter speaks about after resets, retuning and mixed call forms depends on the history.", "anchors": ["pid_controller/include/pid_controller/pid.hpp:PID::get_proportional_error", "pid_controller/include/pid_controller/pid.hpp:PID::get_derivative_error", "pid_controller/include/pid_controller/pid_1d.hpp:PID_1D::get_proportional_error", "multirotor_simulator/multirotor_controllers/controllers/position_controller.hpp:PositionController::get_position_error", "multirotor_simulator/multirotor_controllers/controllers/velocity_controller.hpp:VelocityController::get_velocity_error", "multirotor_simulator/multirotor_controllers/controllers/trajectory_controller.hpp:TrajectoryController::get_velocity_error", "multirotor_simulator/multirotor_controllers/controllers/indi_controller.hpp:IndiController::get_desired_torque"]}
{"id": "C86", "title": "With perfect sensors the odometry knows the flight", "statement": "Fly in rounds of any piloting followed by one update each of vehicle, IMU and odometry with one step, the IMU noiseless along the body axes, the odometry unfiltered and started with the vehicle's attitude. Then after any number of rounds the odometry's attitude is exactly the attitude the vehicle will have after its next update, its rates are the vehicle's, and away from floors its velocity is the momentum gained since the start (mass times velocity change), its position the integral of that, its acceleration mass times the vehicle's acceleration. It is not the attitude of the same instant: the odometry runs one step ahead. The odometry the simulator returns is made of these values.", "quantifier": "every vehicle, process noise, control mode, manoeuvre, number of rounds; steps up to 10 ms; floor contacts included for the attitude", "why_tests_cant": "The odometry test integrates constant readings for one step; agreement of two different integrators over whole closed-loop flights, through contact and restarts, needs an invariant.", "anchors": ["multirotor_simulator/imu_simulator/inertial_odometry.hpp:InertialOdometry::update", "multirotor_simulator/imu_simulator/imu.hpp:IMU::update", "multirotor_simulator/multirotor_simulator.hpp:Simulator::update_imu", "multirotor_simulator/multirotor_simulator.hpp:Simulator::update_inertial_odometry", "multirotor_simulator/multirotor_dynamic_model/dynamics.hpp:Dynamics::process_euler_explicit"]}
{"id": "C87", "title": "A closed-loop flight is the same everywhere", "statement": "Displace a simulator, its floor and every position it is asked for by the same vector, and the whole flight (any calls, any control modes, contacts, failures) is displaced by that vector: attitude, velocities, rotor speeds, commands, IMU and odometry readings are identical. From construction this holds once a floor height and a reference position are given; for sideways displacements no floor is needed. Upwards without a floor it is false, because arming asks for height 0.", "quantifier": "every displacement, simulator state, history of calls, noise; over the reals", "why_tests_cant": "The tests fly from the origin only; independence of the place is a statement about pairs of runs.", "anchors": ["multirotor_simulator/multirotor_simulator.hpp:Simulator::update_controller", "multirotor_simulator/multirotor_simulator.hpp:Simulator::update_dynamics", "multirotor_simulator/multirotor_simulator.hpp:Simulator::arm", "multirotor_simulator/multirotor_simulator.hpp:Simulator::set_control_mode", "multirotor_simulator/multirotor_controllers/multirotor_controllers.hpp:Controller::compute_position_control"]}
{"id": "C88", "title": "Watching the flight does not change it", "statement": "IMU and odometry updates, their settings and their noise generators never influence the vehicle, the controller, the references or the commands: a flight with them, run on a simulator with any other sensor settings and with all sensor calls left out, is the same flight. A vehicle that is never armed moves only by its own calls: leaving out every controller update, mode change, reference and sensor call gives the same motion.", "quantifier": "every simulator, pair of sensor settings and generators, history of calls; any arithmetic, binary64 included", "why_tests_cant": "Non-interference compares all pairs of runs; a test sees one run.", "anchors": ["multirotor_simulator/multirotor_simulator.hpp:Simulator::update_imu", "multirotor_simulator/multirotor_simulator.hpp:Simulator::update_inertial_odometry", "multirotor_simulator/multirotor_simulator.hpp:Simulator::update_dynamics", "multirotor_simulator/multirotor_simulator.hpp:Simulator::update_controller"]}
{"id": "C89", "title": "The numbering of the rotors does not matter", "statement": "Renumber the rotors: permute the motor list, the allocation rows of the controller, the initial rotor speeds and accelerations, and the rotor speeds given by hand. Every flight of the renumbered vehicle is the same flight, with the same motion, sensors, references and accelerations and with rotor speeds, accelerations and commands permuted. The quadrotor allocation computed from the renumbered rotor list is the renumbered allocation.", "quantifier": "every vehicle with any number of rotors, permutation, history of calls and noise generators; exact arithmetic", "why_tests_cant": "A test fixes one numbering; an index slip that happens to agree with it passes.", "anchors": ["multirotor_simulator/multirotor_dynamic_model/model.hpp:Model::update_params", "multirotor_simulator/multirotor_dynamic_model/dynamics.hpp:Dynamics::process_euler_explicit", "multirotor_simulator/multirotor_controllers/controllers/indi_controller.hpp:IndiController::acro_to_motor_angular_velocity", "multirotor_simulator/multirotor_controllers/controllers/indi_controller.hpp:compute_quadrotor_mixer_matrix_inverse", "multirotor_simulator/multirotor_simulator.hpp:Simulator::update_controller"]}
{"id": "C90", "title": "Clamping a vector brings each component within its limits", "statement": "The vector clamp leaves every component within the limits: components already within are unchanged, those outside become the nearest limit. Ordered limits are always acceptable, and the limits passed are the limits respected.", "quantifier": "every vector, every pair of limits; any arithmetic, and binary64 with the limits passed through single precision", "why_tests_cant": "The limits are converted to single precision, so the excess is in the eighth digit; a test with limits such as 0, 1 or 2.5 cannot show it.", "anchors": ["multirotor_simulator/multirotor_dynamic_model/common/utils.hpp:clamp_vector"]}
{"id": "C91", "title": "Objects used as they come do nothing", "statement": "A PID loop, vector or scalar, built with default parameters outputs zero for every history of control calls and resets, whatever the errors and time steps. A flight controller built with default parameters commands zero to every rotor for every history of control calls, conversions and resets. A simulator built with default parameters stays at rest.", "quantifier": "every history of control calls; exact arithmetic for loops and controller, every libm, generator and time step up to 10 ms for the vehicle in binary64", "why_tests_cant": "A test of a default object looks at one call; defaults are hidden in member initialisers spread over several files.", "anchors": ["pid_controller/include/pid_controller/pid.hpp:PIDParams", "pid_controller/include/pid_controller/pid_1d.hpp:PIDParams", "multirotor_simulator/multirotor_controllers/multirotor_controllers.hpp:ControllerParams", "multirotor_simulator/multirotor_dynamic_model/model.hpp:ModelParams", "multirotor_simulator/multirotor_dynamic_model/dynamics.hpp:Dynamics::process_euler_explicit"]}
{"id": "C92", "title": "A mirrored mission gives the mirror image of the flight", "statement": "Fly the mirror image of a mission: left and right exchanged in the start, in every request (rates, positions, velocities, accelerations, heading, yaw rate) and in the vehicle. Without noise, and with PID settings that treat both directions alike, the flight is exactly the mirror image, at every moment and in every control mode, with the same rotor commands. An X quadrotor is its own mirror image: the same vehicle and controller on the mirrored mission fly the mirror image with left and right rotors exchanged.", "quantifier": "every vehicle with any number of rotors, every start, every history of calls (except handing over hand-modified parts), every generator, exact arithmetic", "why_tests_cant": "A sign error in one cross product, one mixer entry or one branch of the heading code shows only in one of two mirrored flights; a test would need to compare pairs of whole flights for all missions.", "anchors": ["multirotor_simulator/multirotor_simulator.hpp:Simulator::update_dynamics", "multirotor_simulator/multirotor_simulator.hpp:Simulator::update_controller", "multirotor_simulator/multirotor_simulator.hpp:Simulator::set_control_mode", "multirotor_simulator/multirotor_controllers/multirotor_controllers.hpp:Controller", "multirotor_simulator/multirotor_controllers/controllers/acro_controller.hpp:AcroController", "multirotor_simulator/multirotor_controllers/controllers/indi_controller.hpp:IndiController", "multirotor_simulator/multirotor_dynamic_model/dynamics.hpp:Dynamics::process_euler_explicit", "multirotor_simulator/multirotor_dynamic_model/model.hpp:Model"]}
{"id": "C93", "title": "A closed-loop flight does not depend on the compass direction", "statement": "Turn the whole scene by any angle about the vertical (start, requests, gravity, heading requests): without drag and noise, and with PID gains equal on both horizontal axes, the flight is the same flight turned by that angle, with the same rotor commands, as long as the nose is not exactly vertical when the heading is read.", "quantifier": "every angle, vehicle, start and history of calls, exact arithmetic", "why_tests_cant": "Heading enters through euler angles, sine and cosine and the desired attitude; tests fly a few headings.", "anchors": ["multirotor_simulator/multirotor_simulator.hpp:Simulator::update_dynamics", "multirotor_simulator/multirotor_simulator.hpp:Simulator::update_controller", "multirotor_simulator/multirotor_simulator.hpp:Simulator::set_control_mode", "multirotor_simulator/multirotor_controllers/multirotor_controllers.hpp:Controller", "multirotor_simulator/multirotor_controllers/controllers/acro_controller.hpp:AcroController", "multirotor_simulator/multirotor_controllers/controllers/indi_controller.hpp:IndiController", "multirotor_simulator/multirotor_dynamic_model/dynamics.hpp:Dynamics::process_euler_explicit", "multirotor_simulator/multirotor_dynamic_model/model.hpp:Model"]}
{"id": "C94", "title": "A vehicle that is heavier and stronger in proportion flies the same way", "statement": "Multiply mass, inertia, gravity term, rotor coefficients, rotor inertia, drag and aerodynamic coefficients, and the mass, inertia and allocation told to the controller by one positive factor: the motion and the commanded rotor speeds stay the same and all forces and torques are multiplied by the factor, in every mode but ACRO and without the floor. The allocation computed from the scaled rotors is the scaled allocation.", "quantifier": "every positive factor, vehicle, start and history of calls, exact arithmetic", "why_tests_cant": "Ties every place where a mass or a coefficient is used; a place that forgets or repeats a factor is invisible at mass one.", "anchors": ["multirotor_simulator/multirotor_simulator.hpp:Simulator::update_dynamics", "multirotor_simulator/multirotor_simulator.hpp:Simulator::update_controller", "multirotor_simulator/multirotor_simulator.hpp:Simulator::set_control_mode", "multirotor_simulator/multirotor_controllers/multirotor_controllers.hpp:Controller", "multirotor_simulator/multirotor_controllers/controllers/acro_controller.hpp:AcroController", "multirotor_simulator/multirotor_controllers/controllers/indi_controller.hpp:IndiController", "multirotor_simulator/multirotor_dynamic_model/dynamics.hpp:Dynamics::process_euler_explicit", "multirotor_simulator/multirotor_dynamic_model/model.hpp:Model"]}
{"id": "C95", "title": "A requested climb or descent speed is reached without overshoot", "statement": "A level, armed quadrotor in velocity mode is asked to climb faster or slower than it does, or to sink. Without drag and noise, with a controller that knows mass and weight and whose vertical velocity loop is a mere gain of at most a quarter (climbing) or a fifth (sinking) of the rotors' bandwidth, each round of control and motion brings the speed closer to the requested one and never beyond; what is missing shrinks at least geometrically, so the speed gets and stays as close as wanted. Sideways it does not move.", "quantifier": "every X or + quadrotor with any mass, inertia, coefficients, rotor range, heading and starting speed, every gain up to the bound, every step up to 10 ms and the rotor time constant, any number of rounds, exact arithmetic", "why_tests_cant": "Closed-loop convergence ties rotor lag, allocation, thrust law, mass and gravity compensation and the PID together for ever; a test looks at one vehicle for some seconds and cannot exclude an overshoot or a standing error.", "anchors": ["multirotor_simulator/multirotor_simulator.hpp:Simulator::update_dynamics", "multirotor_simulator/multirotor_simulator.hpp:Simulator::update_controller", "multirotor_simulator/multirotor_simulator.hpp:Simulator::set_reference_velocity", "multirotor_simulator/multirotor_controllers/multirotor_controllers.hpp:Controller::compute_velocity_control", "multirotor_simulator/multirotor_controllers/controllers/acro_controller.hpp:AcroController", "multirotor_simulator/multirotor_controllers/controllers/indi_controller.hpp:IndiController", "multirotor_simulator/multirotor_dynamic_model/dynamics.hpp:Dynamics::process_euler_explicit", "pid_controller/include/pid_controller/pid.hpp:PID::compute_control"]}
{"id": "C96", "title": "Integral action leaves no standing error", "statement": "For each loop (position, velocity, trajectory, body rates) and axis without a bound or reset on the integral, the reported integral contribution is the integral gain times the sum of time step times error over the control updates in which that loop worked, through all mode switches, arming and disarming, since construction. So as long as the contribution stays within a bound B, the total error over any stretch of the flight is at most 2B divided by the gain, and a flight in which the error settles while the contribution stays bounded settles with no error, whatever mass, gravity, drag, floor or noise the controller does not know of.", "quantifier": "every vehicle, rotor count, loop, axis, history of calls that keeps the controller object, every generator, exact arithmetic", "why_tests_cant": "The absence of a standing error is a statement about the limit of a flight under any disturbance; it ties the accumulator of each loop to the errors actually seen over whole histories with mode switches.", "anchors": ["multirotor_simulator/multirotor_simulator.hpp:Simulator::update_controller", "multirotor_simulator/multirotor_simulator.hpp:Simulator::set_control_mode", "multirotor_simulator/multirotor_controllers/multirotor_controllers.hpp:Controller::compute_position_control", "multirotor_simulator/multirotor_controllers/multirotor_controllers.hpp:Controller::compute_velocity_control", "multirotor_simulator/multirotor_controllers/multirotor_controllers.hpp:Controller::compute_trajectory_control", "multirotor_simulator/multirotor_controllers/controllers/indi_controller.hpp:IndiController::acro_to_motor_angular_velocity", "pid_controller/include/pid_controller/pid.hpp:PID::compute_integral_contribution"]}
{"id": "C97", "title": "The errors of the odometry grow no faster than those of the sensors allow", "statement": "Feed two inertial odometries the same steps with gyroscope readings at most eg and accelerometer readings at most ea apart, accelerations up to A, any low-pass filter. After a time t the attitudes differ by at most eg t / 2 as quaternions (a direction turned by them by at most eg t times its length), the velocities by at most ea t + eg A t^2 / 2 and the positions by at most ea t (t + h) / 2 + eg A ((t + h)^3 - h^3) / 6 with h the largest step; the bounds in ea are reached. In a simulated flight whose IMU stays that close to the truth, however noise and bias arise, the odometry stays that close to the flight actually flown, up to the known mass factor and one step ahead.", "quantifier": "every pair of reading sequences, step sizes, filter constant in [0,1], error sizes; every flight without floor and every generator with dt up to the sub-step limit; exact arithmetic", "why_tests_cant": "The error growth is over whole histories and all pairs of sensor readings, and rests on the distances of products and normalisations of quaternions, which a test with a given noise seed does not bound.", "anchors": ["multirotor_simulator/imu_simulator/inertial_odometry.hpp:InertialOdometry::update", "multirotor_simulator/imu_simulator/inertial_odometry.hpp:InertialOdometry::integrate_measurement", "multirotor_simulator/multirotor_simulator.hpp:Simulator::update_inertial_odometry", "multirotor_simulator/multirotor_simulator.hpp:Simulator::update_imu", "multirotor_simulator/imu_simulator/imu.hpp:IMU::process_measurement"]}
{"id": "C98", "title": "A vehicle left alone keeps its energy and its angular momentum", "statement": "In every step the kinetic energy changes by the reported force times the mean velocity times the step, and the energy of rotation by the reported torque times the mean rate times the step. With the rotors off and without drag, a falling vehicle keeps kinetic plus potential energy, and a tumbling one (any symmetric inertia) keeps its energy of rotation and its angular momentum along the world axes.", "quantifier": "every vehicle, rotor count, state, inertia, gravity, constant external force, number of steps; exact arithmetic", "why_tests_cant": "Conservation is a statement about flights of any length and any inertia; the drift of an explicit Euler step is of second order in the step and hides below the tolerances of tests.", "anchors": ["multirotor_simulator/multirotor_dynamic_model/dynamics.hpp:Dynamics::process_euler_explicit", "multirotor_simulator/multirotor_dynamic_model/dynamics.hpp:Dynamics::get_vehicle_angular_velocity_derivative", "multirotor_simulator/multirotor_dynamic_model/dynamics.hpp:Dynamics::get_vehicle_linear_velocity_derivative", "multirotor_simulator/multirotor_dynamic_model/common/utils.hpp:get_quaternion_derivative"]}
{"id": "C99", "title": "Asked to hold a place above or below, the vehicle flies there without overshoot", "statement": "A level, armed quadrotor hanging still is asked in position mode to hold a place straight above or below it. Without drag and noise, with a controller that knows mass and weight and whose vertical position and velocity loops are mere gains, the outer at most a quarter (on the way down a fifth) of the inner and the inner at most a fifth of the rotors' bandwidth, every round of control and motion brings it closer and never past the place; what is missing shrinks at least geometrically, so it gets and stays as close as wanted. Sideways it does not move. Loops as fast as the rotors shoot past.", "quantifier": "every X or + quadrotor with any mass, inertia, coefficients, rotor range and heading, every pair of gains within the bounds, every way up or down that asks for at most a quarter of the weight, every step up to 10 ms and the rotor time constant, any number of rounds, exact arithmetic", "why_tests_cant": "Absence of overshoot of the cascade of position loop, velocity loop, thrust law, allocation and lagging rotors holds for ever and for a range of gains; a test looks at one tuning for some seconds.", "anchors": ["multirotor_simulator/multirotor_simulator.hpp:Simulator::update_dynamics", "multirotor_simulator/multirotor_simulator.hpp:Simulator::update_controller", "multirotor_simulator/multirotor_simulator.hpp:Simulator::set_reference_position", "multirotor_simulator/multirotor_controllers/multirotor_controllers.hpp:Controller::compute_position_control", "multirotor_simulator/multirotor_controllers/multirotor_controllers.hpp:Controller::compute_velocity_control", "multirotor_simulator/multirotor_controllers/controllers/acro_controller.hpp:AcroController", "multirotor_simulator/multirotor_controllers/controllers/indi_controller.hpp:IndiController", "multirotor_simulator/multirotor_dynamic_model/dynamics.hpp:Dynamics::process_euler_explicit", "pid_controller/include/pid_controller/pid.hpp:PID::compute_control"]}
{"id": "C100", "title": "With smaller steps the simulated flight approaches the true motion", "statement": "Take a vehicle under constant rotor commands and a constant external force, and a solution of the textbook equations of motion for it: Newton's law with rotor thrust, weight, quadratic drag and the external force, Euler's law with rotor moments, aerodynamic moment and gyroscopic term, the attitude kinematics and the first-order lag of the rotors. Without noise the simulated state, step by step, differs from that solution in every number (position, velocity, attitude, body rates, rotor speeds) by at most a constant times the step plus the initial difference. The constant depends on the vehicle, the motion and its duration, not on the step. The same holds for the simulator flown in motor mode.", "quantifier": "every vehicle with positive mass and invertible inertia, any number of rotors in any arrangement, every command, every constant force, every duration, every exact solution, every step up to 10 ms, the rotor time constants and a bound, every number of steps within the duration, exact arithmetic", "why_tests_cant": "Convergence compares all step sizes with a solution of a differential equation that no test can evaluate in general; a test at one step size cannot tell a consistent scheme from one that is slightly wrong.", "anchors": ["multirotor_simulator/multirotor_simulator.hpp:Simulator::update_dynamics", "multirotor_simulator/multirotor_dynamic_model/dynamics.hpp:Dynamics::process_euler_explicit", "multirotor_simulator/multirotor_dynamic_model/dynamics.hpp:Dynamics::get_vehicle_angular_velocity_derivative", "multirotor_simulator/multirotor_dynamic_model/dynamics.hpp:Dynamics::get_vehicle_linear_velocity_derivative", "multirotor_simulator/multirotor_dynamic_model/dynamics.hpp:Dynamics::get_vehicle_orientation_derivative", "multirotor_simulator/multirotor_dynamic_model/dynamics.hpp:Dynamics::get_motors_angular_velocity_derivative", "multirotor_simulator/multirotor_dynamic_model/model.hpp:Model::get_torque_by_motors"]}
{"id": "C101", "title": "In double precision equal rotor speeds lift an upright quadrotor straight up to the last bit", "statement": "A ready-made quadrotor that stands upright at any heading, does not rotate and does not move sideways, and gets one command for all four rotors, with gravity and the external force along the vertical and no force noise, keeps its x and y coordinates, its roll and pitch and its zero body rates and sideways velocity exactly, bit for bit up to the sign of zero, over any number of calls. Rounding does not make it drift or tilt, because the four rotor contributions cancel exactly. From heading zero the attitude stays exactly the identity.", "quantifier": "both ready-made quadrotor layouts, all parameters, states and calls of reasonable size, every step of the sequence (also split steps), every random generator, every rotor command including infinities, IEEE double precision", "why_tests_cant": "Whether rounding errors cancel exactly depends on every parameter value; a test with a few values cannot show that no combination of mass, arm lengths, coefficients and speeds leaves a rest that grows with time.", "anchors": ["multirotor_simulator/multirotor_dynamic_model/dynamics.hpp:Dynamics::process_euler_explicit", "multirotor_simulator/multirotor_dynamic_model/model.hpp:Model::get_torque_by_motors", "multirotor_simulator/multirotor_dynamic_model/model.hpp:Model::get_force_by_motors", "multirotor_simulator/multirotor_dynamic_model/model.hpp:Model::compute_mixer_matrix_6D", "multirotor_simulator/multirotor_dynamic_model/model.hpp:Model::create_quadrotor_x_config", "multirotor_simulator/multirotor_dynamic_model/model.hpp:Model::create_quadrotor_plus_config"]}
{"id": "C102", "title": "A PID controller fed with sensible numbers never gives NaN or infinity, whatever its history", "statement": "Take a vector or scalar PID controller with finite settings of reasonable size, filter weights between 0 and 1 and, for the vector controller, saturation limits on the two sides of zero. After any sequence of calls of its public functions with numbers of reasonable size and positive time steps, its output and its proportional, integral and derivative parts are finite and bounded by a fixed number that does not depend on how many calls were made, even without anti-windup. The scalar controller also never runs into undefined behaviour. With proportional saturation and limits that exclude zero, which the controller accepts, a zero error gives NaN.", "quantifier": "every sequence of public calls of any length, every settings up to 2^g in size, every error up to 2^h for any 0 <= g <= h with h + 2 g <= 940, every time step between 2^-g and 2^g, every filter weight between 0 and 1, with and without saturation, anti-windup and reset flag, IEEE double precision", "why_tests_cant": "Overflow and NaN appear after long histories and for rare combinations of settings; tests run a few hundred calls with ordinary values.", "anchors": ["pid_controller/include/pid_controller/pid.hpp:PID::compute_control", "pid_controller/include/pid_controller/pid.hpp:PID::saturate_output", "pid_controller/include/pid_controller/pid.hpp:PID::compute_integral_contribution", "pid_controller/include/pid_controller/pid.hpp:PID::compute_derivative_contribution_by_deriving", "pid_controller/include/pid_controller/pid_1d.hpp:PID::compute_control", "pid_controller/include/pid_controller/pid_1d.hpp:PID::saturate_output"]}
{"id": "C103", "title": "The IMU and the odometry fed with sensible numbers never give NaN or infinity, whatever their history", "statement": "After any sequence of calls of the public functions of the IMU with non-negative noise settings, a unit mounting rotation and forces and rates of reasonable size, its measurements and biases are finite and bounded by a fixed number. After any sequence of updates and resets of the odometry with a filter weight between 0 and 1, measurements of reasonable size and steps of at most a second, its position, velocities and acceleration are finite and bounded by a fixed number and its orientation has length close to one. The bounds do not depend on the number of calls.", "quantifier": "every sequence of public calls of any length, every argument up to 2^64 in size, every random generator with draws up to 2^64, IEEE double precision", "why_tests_cant": "A random walk and a double integration grow without limit in exact arithmetic; that double precision numbers stop growing before they overflow cannot be seen in a finite test.", "anchors": ["multirotor_simulator/imu_simulator/imu.hpp:IMU::update", "multirotor_simulator/imu_simulator/imu.hpp:IMU::process_bias", "multirotor_simulator/imu_simulator/imu.hpp:IMU::process_measurement", "multirotor_simulator/imu_simulator/inertial_odometry.hpp:InertialOdometry::update", "multirotor_simulator/imu_simulator/inertial_odometry.hpp:InertialOdometry::integrate_measurement", "multirotor_simulator/imu_simulator/inertial_odometry.hpp:InertialOdometry::filter_measurement"]}
{"id": "C104", "title": "The flight controller fed with sensible numbers commands numbers, whatever its history", "statement": "Build a flight controller from finite settings of reasonable size. After any sequence of calls of its public functions and of those of its parts, with states, references and settings of reasonable size, filter weights between 0 and 1, limits on the two sides of zero and steps that are neither tiny nor huge, every commanded rotor speed, thrust, rate, acceleration, velocity and position is finite and bounded by a fixed number. This includes commands that leave the direction of the thrust undefined, such as free fall, for which the code normalises a zero or almost zero vector.", "quantifier": "every sequence of public calls of any length, every argument up to 2^32 in size, every step between 2^-32 and 2^32, every number of rotors, every sine and cosine that return numbers between -1 and 1, IEEE double precision", "why_tests_cant": "The cascade multiplies gains over five stages and normalises vectors that may be subnormal; tests use a few gains and ordinary directions.", "anchors": ["multirotor_simulator/multirotor_controllers/multirotor_controllers.hpp:Controller::compute_position_control", "multirotor_simulator/multirotor_controllers/multirotor_controllers.hpp:Controller::compute_velocity_control", "multirotor_simulator/multirotor_controllers/multirotor_controllers.hpp:Controller::compute_trajectory_control", "multirotor_simulator/multirotor_controllers/multirotor_controllers.hpp:Controller::compute_acceleration_control", "multirotor_simulator/multirotor_controllers/controllers/acro_controller.hpp:AcroController::yaw_angle_to_angular_velocity", "multirotor_simulator/multirotor_controllers/controllers/indi_controller.hpp:IndiController::acro_to_motor_angular_velocity"]}
{"id": "C105", "title": "While the motion stays of reasonable size, nothing the simulator shows is NaN or infinite", "statement": "Build a simulator from finite settings of reasonable size, whose yaw gain is zero or not tiny. Take any history of calls: steps of dynamics, controller, sensor and odometry in any order and with any positive steps that are neither tiny nor huge, arming, disarming, floor on and off at any height, changes of mode, references, and replacements of vehicle, controller, sensor or odometry by other sensible ones. As long as the motion and the measurements themselves do not exceed huge fixed bounds, every number that can then be read - state, commands, references, controller outputs, measurements, biases, odometry - is finite.", "quantifier": "every history of any length, every vehicle of up to 100 rotors, every mode, every noise generator whose variates stay below 2^64, every sine, cosine and arc tangent that return numbers in their range, IEEE double precision", "why_tests_cant": "A NaN spreads silently through all later states and no test runs every order of calls, modes and parameter changes in floating point.", "anchors": ["multirotor_simulator/multirotor_simulator.hpp:Simulator::update_dynamics", "multirotor_simulator/multirotor_simulator.hpp:Simulator::update_controller", "multirotor_simulator/multirotor_simulator.hpp:Simulator::update_imu", "multirotor_simulator/multirotor_simulator.hpp:Simulator::update_inertial_odometry", "multirotor_simulator/multirotor_simulator.hpp:Simulator::set_control_mode", "multirotor_simulator/multirotor_controllers/multirotor_controllers.hpp:Controller::yaw_rate_to_angle"]}
{"id": "C106", "title": "Rounding errors in the reported motion add up no faster than linearly", "statement": "In double precision, after any run of steps of up to 10 ms, each coordinate of the reported position equals the starting value plus the sum of reported velocity times step, each velocity the sum of reported acceleration times step, each body rate the sum of reported angular acceleration times step, up to the number of steps times 2^-53 times the size of the numbers involved. The same holds for position and velocity of the inertial odometry. No equality is promised: far from the origin a slow vehicle does not move at all.", "quantifier": "every run of any length with any commands, forces, noise and rejected steps in between, every axis, every bound on the numbers seen, IEEE double precision", "why_tests_cant": "A test compares a few steps with a tolerance; how errors build up over millions of steps is out of its reach.", "anchors": ["multirotor_simulator/multirotor_dynamic_model/dynamics.hpp:Dynamics::process_euler_explicit", "multirotor_simulator/imu_simulator/inertial_odometry.hpp:InertialOdometry::update"]}
{"id": "C107", "title": "The plotting script reads every flight log back exactly as it was logged", "statement": "Fly an example, however long and with whatever vehicle of four rotors, and open the log with the plotting script. Under every column name the script holds one number per logged row, in order, each what the printed number of that quantity and row reads as; under names that are not logged it holds nothing, and it prints no warning. A log without rows gives empty figures.", "quantifier": "every list of logged rows, every vehicle and simulator state, every number format whose texts are printable and read back, every arithmetic", "why_tests_cant": "Writer and reader are in two languages and agree only through text; a test reads a few short logs, while a missing comma, an empty field or a value that prints as nothing shifts all later columns of a row.", "anchors": ["examples/fly_example.cpp:CsvLogger::save", "examples/fly_example.cpp:CsvLogger::CsvLogger", "examples/plot_results.py:read_csv"]}
{"id": "C108", "title": "Each panel shows the quantity it names, with its reference and estimate, and the printed error is the mean distance from the reference", "statement": "After any flight without NaN references, the script draws, for each of the 32 quantities in its place in the three figures, the logged quantity against the logged time, together with its reference and its odometry estimate exactly when those are logged; the picture in space has true, estimated and commanded path. For each quantity with a reference it prints the mean absolute difference of quantity and reference over all rows - zero only if they agree in every row - and for the others it prints none.", "quantifier": "every list of logged rows, every vehicle and simulator state, every number format that reads back; the error in exact arithmetic", "why_tests_cant": "Which panel gets which column is decided by string concatenation at run time; looking at a plot of one flight does not show that a curve is another quantity of similar shape.", "anchors": ["examples/plot_results.py:plot_values", "examples/plot_results.py:compute_mean_error", "examples/plot_results.py:plot_values_3d", "examples/plot_results.py:update_plot_figure1", "examples/plot_results.py:update_plot_figure2", "examples/plot_results.py:update_plot_figure3"]}
{"id": "C109", "title": "The picture in space shows the whole flight", "statement": "After any flight, every position of the vehicle lies within the drawn range of the picture in space.", "quantifier": "every list of logged rows, every vehicle and simulator state, every number format that reads back", "why_tests_cant": "The range is computed from the extremes of the three coordinates; test flights all stay above the ground near the origin.", "anchors": ["examples/plot_results.py:plot_values_3d", "examples/plot_results.py:update_plot_figure0"]}
{"id": "C110", "title": "A requested rotation rate is reached without overshoot", "statement": "Fly a symmetric X quadrotor in ACRO mode and ask for a turn about one body axis with the collective thrust it has. In every round the remaining error of the rate is between zero and the previous one, it falls below any bound at a geometric speed given by the rate gain, and the vehicle does not start to turn about another axis. Conditions: rate loop purely proportional with a gain times motor time constant of at most 1/5, rotors not at their limits, principal axis, no resistance of the air to turning, no noise.", "quantifier": "every axis and direction, every start rate about that axis, requested change, thrust, inertia, gain, time constant and step within the conditions, every attitude, position, velocity, mass, gravity and drag, every number of rounds; exact arithmetic", "why_tests_cant": "Overshoot depends on the interplay of rate loop, allocation, signed root, motor lag and rigid body over an unbounded number of rounds and a continuum of gains; a test sees one response.", "anchors": ["multirotor_simulator/multirotor_simulator.hpp:Simulator::update_controller", "multirotor_simulator/multirotor_controllers/controllers/indi_controller.hpp:IndiController::acro_to_motor_angular_velocity", "multirotor_simulator/multirotor_dynamic_model/dynamics.hpp:Dynamics::process_euler_explicit"]}
{"id": "C111", "title": "The vehicle obeys the documented equations of motion", "statement": "Without noise and external force, one step of at most 0.01 s changes the state by its documented derivative (docs/Dynamics.md, docs/Kinematics.md): rotor lag, rotor forces and torques of every rotor in its own frame, gravity m g, drag - k v^2 in body axes, aerodynamic torque - w x (I_aero w), Newton's and Euler's equations, quaternion derivative q w / 2.", "quantifier": "every number of rotors, placement and parameters with invertible inertia, every state with unit attitude and forward-turning rotors, every command and step", "why_tests_cant": "Documentation and code are two independent formulations of the same equations; tests compare the code with itself at a few points, mostly with unit mass, identity attitude and no air.", "anchors": ["docs/Dynamics.md", "docs/Kinematics.md", "multirotor_simulator/multirotor_dynamic_model/dynamics.hpp:Dynamics::process_euler_explicit", "multirotor_simulator/multirotor_dynamic_model/model.hpp:Model::get_drag_force", "multirotor_simulator/multirotor_dynamic_model/model.hpp:Model::get_aerodynamic_moment", "multirotor_simulator/multirotor_dynamic_model/model.hpp:Model::get_torque_by_motors"]}
{"id": "C112", "title": "An example program flies what its configuration file says, or refuses the file", "statement": "Started next to a configuration file, an example program flies the vehicle, controller, sensors, floor, duration, time step and references written under the documented keys of that file, whatever the order of the keys and whatever else the file contains; duration, time step, yaw rate, speed and references have defaults if their entry is absent; without a file the built-in parameters are flown; a file that lacks a required number, or has an unusable entry, ends the program with an exception before anything is flown.", "quantifier": "every tree a configuration file can hold, every conversion of scalars to numbers, every arithmetic, all four programs, every number of rounds", "why_tests_cant": "The programs are not tested at all; some hundred numbers are looked up one by one under literal keys, through a handle whose reassignment overwrites the document that is being read, and a swapped key or index yields a vehicle that still flies.", "anchors": ["examples/fly_example.cpp:main", "examples/fly_example.cpp:read_yaml_param", "examples/fly_example.cpp:get_simulation_params_from_yaml", "examples/fly_example.cpp:get_simulation_params", "examples/fly_example.cpp:get_sim_time", "examples/fly_example.cpp:get_references", "examples/fly_example.cpp:get_yaw_rate_reference", "examples/trajectory_fly_example/traj_gen_example.cpp:main", "examples/trajectory_fly_example/traj_gen_example.cpp:read_yaml_param", "examples/trajectory_fly_example/traj_gen_example.cpp:get_simulation_params_from_yaml", "examples/trajectory_fly_example/traj_gen_example.cpp:get_trajectory_generator_max_speed", "examples/trajectory_fly_example/traj_gen_example.cpp:get_trajectory_generator_waypoints", "examples/simulation_config.yaml"]}
{"id": "C113", "title": "Asked to fly to one side, the vehicle leans to that side", "statement": "A level vehicle that is asked to accelerate, to fly at a velocity or to go to a place starts to lean towards the demanded acceleration, the missing velocity or the place, whatever direction it faces: ahead means pitching down, left means rolling left, and the thrust axis moves towards the demand.", "quantifier": "every reachable controller with equal positive roll and pitch gains, every level attitude, demanded heading, demand, error and time step, every way of turning at the commanded rates", "why_tests_cant": "The tests compare a few rates with recorded numbers; a flipped sign, a transposed attitude or exchanged axes gives numbers just as plausible, and the side only shows relative to the direction the vehicle faces.", "anchors": ["multirotor_simulator/multirotor_controllers/controllers/acro_controller.hpp:AcroController::yaw_angle_to_angular_velocity", "multirotor_simulator/multirotor_controllers/controllers/acro_controller.hpp:AcroController::acceleration_to_thrust", "multirotor_simulator/multirotor_controllers/multirotor_controllers.hpp:Controller::compute_acceleration_control", "multirotor_simulator/multirotor_controllers/multirotor_controllers.hpp:Controller::compute_velocity_control", "multirotor_simulator/multirotor_controllers/multirotor_controllers.hpp:Controller::compute_position_control"]}
{"id": "C114", "title": "Rotors follow their command without overshoot in double precision", "statement": "With all roundings, a rotor held at one command with steps shorter than its time constant moves towards the command and never past it, over any number of calls; a speed that one step leaves unchanged is kept for ever, and this can happen short of the command.", "quantifier": "every vehicle, rotor, command and start speed within the limits, every list of calls, long steps that are split included, with limits up to 2^64 and time constants from 2^-64", "why_tests_cant": "Whether the last bits settle, oscillate or creep past the command depends on roundings of every pair of values; tests use tolerances and a few hundred steps.", "anchors": ["multirotor_simulator/multirotor_dynamic_model/dynamics.hpp:Dynamics::get_motors_angular_velocity_derivative", "multirotor_simulator/multirotor_dynamic_model/dynamics.hpp:Dynamics::process_euler_explicit"]}
{"id": "C115", "title": "Where the vehicle is influences nothing but its position, to the last bit", "statement": "Two simulations that differ only in where the vehicle starts have exactly equal attitudes, velocities, accelerations, forces, rotor speeds and noise after any calls, and are defined or undefined together; only the positions differ, and their difference need not stay the same.", "quantifier": "every arithmetic, vehicle, state, noise generator, pair of positions and list of calls", "why_tests_cant": "Relational property between two unbounded runs; bit equality in every arithmetic is not something two runs can show.", "anchors": ["multirotor_simulator/multirotor_dynamic_model/dynamics.hpp:Dynamics::process_euler_explicit", "multirotor_simulator/multirotor_dynamic_model/dynamics.hpp:Dynamics::state_derivatives"]}
{"id": "C116", "title": "A larger error never gets a smaller command", "statement": "Whatever the controller has been through, of two errors that could come next the larger one on an axis never gets the smaller command on that axis, as long as gains, filter constant and integral bound are not negative and the axes are limited one by one or not at all; the integral reset and the limits do not break this. In double precision rounding does not either, except that with the integral reset switched on plus and minus zero can get different commands.", "quantifier": "every setting and history of the vector and the scalar controller, every time step, both ways of computing a command, every pair of errors with arbitrary errors on the other axes; in double precision every sane setting and history", "why_tests_cant": "Relational property between two calls over all histories, settings and pairs of errors; rounding could turn the order round for a single pair.", "anchors": ["pid_controller/include/pid_controller/pid.hpp:PID::compute_control", "pid_controller/include/pid_controller/pid_1d.hpp:PID::compute_control"]}
{"id": "C117", "title": "Asked for more height, an upright vehicle never demands less thrust", "statement": "Of two requests that differ only in that one lies straight above the other, the higher one never gets the smaller thrust from a vehicle whose thrust axis does not point below the horizon: for accelerations, velocities, positions and trajectories, given to the controllers or as the simulator's reference, whatever the controllers have been through, as long as their settings are not negative and their axes are limited one by one. No rounding error of double precision breaks this. Upside down the order can be turned round.", "quantifier": "every reachable controller with non-negative settings, every upright attitude, position, velocity and rate, every heading and time step, every pair of requests one above the other; exact arithmetic and, for settings and inputs of reasonable size and every history of calls, double precision with the integral not cleared on a change of sign", "why_tests_cant": "Relational property between two requests over all histories of cascaded controllers, attitudes and pairs of requests; a single rounding could turn the order round.", "anchors": ["multirotor_simulator/multirotor_controllers/multirotor_controllers.hpp:Controller::compute_position_control", "multirotor_simulator/multirotor_controllers/multirotor_controllers.hpp:Controller::convert_linear_acceleration_to_acro", "multirotor_simulator/multirotor_simulator.hpp:Simulator::update_controller"]}
{"id": "C118", "title": "Asked for more thrust, every rotor turns faster", "statement": "Of two acro requests that differ only in the thrust, the larger thrust gets the larger command for every rotor of the ready-made X and plus quadrotors, and the signed squares of all four commands grow by the same amount, the change of thrust divided by four times the thrust coefficient; given to the controllers or as the simulator's reference, whatever the controllers have been through. For any number of rotors, no rotor to which the allocation gives a non-negative share of the thrust slows down, also in double precision. A vehicle with its rotors on one side of its centre of mass can have a rotor that slows down.", "quantifier": "every state of the controller, every measured and requested rate, time step and pair of thrusts, every X and plus layout; every allocation with non-negative thrust shares in exact arithmetic and, for settings and inputs of reasonable size and every history of calls, in double precision", "why_tests_cant": "Relational property between two requests over all controller states, rates, layouts and pairs of thrusts, and over all roundings.", "anchors": ["multirotor_simulator/multirotor_controllers/controllers/indi_controller.hpp:IndiController::acro_to_motor_angular_velocity", "multirotor_simulator/multirotor_controllers/controllers/indi_controller.hpp:compute_quadrotor_mixer_matrix_inverse", "multirotor_simulator/multirotor_simulator.hpp:Simulator::update_controller"]}
{"id": "C119", "title": "Found to turn faster, the rotors push less that way", "statement": "Of two measured rates that differ only about one axis, the larger one never gets a faster command for a rotor that turns the vehicle in the positive sense about that axis, nor a slower one for a rotor that turns it in the negative sense; asked for a larger rate about an axis, the commanded rotors never turn the vehicle less about it, given to the controllers or as the simulator's reference. Rotor by rotor the latter is not so: asked to roll faster while it turns about the vertical, a rotor that rolls the vehicle that way can be slowed down.", "quantifier": "every X and plus layout, every reachable controller whose rate loop has no negative setting and limits the axes one by one, every inertia with principal axes along the body axes, every axis, measured and requested rate, thrust and time step; exact arithmetic; for the measured rates any number of rotors and any allocation, also in double precision for settings and inputs of reasonable size, every history of calls and the integral not cleared on a change of sign", "why_tests_cant": "Relational property between two measurements or requests over all histories, layouts, inertias and rates.", "anchors": ["multirotor_simulator/multirotor_controllers/controllers/indi_controller.hpp:IndiController::acro_to_motor_angular_velocity", "multirotor_simulator/multirotor_controllers/controllers/indi_controller.hpp:compute_quadrotor_mixer_matrix_inverse", "multirotor_simulator/multirotor_simulator.hpp:Simulator::update_controller"]}
