# Formal model of RPS98/quadrotor_model: design

## 1. Approach

The library is header-only C++ (templates over a floating-point type `P` and a rotor count).
The Coq model follows the headers function by function and is *generic in the scalar type*:
every definition takes a type `T` and a record `Ops T` holding the operations the C++ code
performs on `P` (`+ - * /`, `<`, `<=`, `==`, `sqrt`, `abs`, `signbit`, `sin`, `cos`, `asin`, `atan2`,
integer conversion, `M_PI`).  `Ops` has no law fields: it is only a table of functions.  The one model is used three ways.

1. **Any arithmetic** (`forall T (O : Ops T)`): control flow, frame conditions, state-machine and
   history properties.  These hold for exact reals, IEEE doubles, floats, with NaN and infinities.
   Where an order fact is needed (`x < x` is false) it is a visible hypothesis `Irrefl`, and it is
   proved for both instances below.
2. **Exact reals** (`ROps`, stdlib `R`): algebra, geometry, physics, convergence.
3. **IEEE binary64** (`F64Ops`, Flocq `binary_float 53 1024`, round to nearest even; `libm`
   functions are universally quantified): NaN propagation, zero time steps, rounding of `dt/0.01`, and
   error bounds along runs of any length (unit orientation).

Random numbers: the engine and the normal distribution are an arbitrary universally quantified
generator (`Gen`): any state type, any seeding, any draw function.  C++ leaves the evaluation order of
constructor arguments open, so which draw goes to which axis is an arbitrary per-call-site permutation.

Outcomes: a member function returns `Ok obj`, `Throw obj` (exception, with the object as it was left at
the throw point) or `UB` (undefined behaviour: `std::clamp` with `hi < lo`, out-of-range vector index,
signed loop-counter overflow, reading never-written members, dangling reference).

How a property is tied to the code: the model definition cites the file and lines it was read from; the
specification files (`Spec*.v`) state what is claimed in their own words (plain functions and predicates on
the observable results); the proofs connect the two; the theorem files (`T*.v`) hold the final statements
only, each closed by `exact`, with a concrete case beside it.

Statements over histories quantify over lists of API calls (`PidOp`, `Pid1Op`, `CtlOp`, `ImuOp`, `OdomOp`, `SimOp`): one
constructor per public mutating method, run by `pid_run`, `ctl_run`, `sim_run`, ...  A call that throws leaves the
object as at the throw point and the history goes on; undefined behaviour ends it (`None`).

## 2. Files

Build order; all under `rocq/theories`.

| File | Contents |
|---|---|
| `Scalar.v` | Scalars: the table of operations that the C++ code performs on its floating-point template parameter [P], and the outcome of a C++ call |
| `Float64.v` | IEEE 754 binary64 instance of [Ops], round to nearest even, from Flocq's single-NaN formalisation |
| `LinAlg.v` | Vectors, matrices and quaternions with the operations the library takes from Eigen |
| `MUtils.v` | Model of multirotor_simulator/multirotor_dynamic_model/common/utils.hpp and of the data types and Euler conversion of common/state.hpp |
| `MModel.v` | Model of multirotor_simulator/multirotor_dynamic_model/model.hpp |
| `MDynamics.v` | Model of multirotor_simulator/multirotor_dynamic_model/dynamics.hpp |
| `MPid.v` | Model of pid_controller/include/pid_controller/pid.hpp, class PID<P, 3> (dimension 3 is the one the simulator instantiates) |
| `MPid1.v` | Model of pid_controller/include/pid_controller/pid_1d.hpp, the scalar PID |
| `MControl.v` | Model of multirotor_simulator/multirotor_controllers: the acro, INDI, position, velocity and trajectory controllers and the Controller class that composes them (multirotor_controllers.hpp) |
| `MCtlRun.v` | The public interface of the Controller class (multirotor_controllers.hpp) and of the AcroController it contains, as operations: for statements about every history of calls |
| `MImu.v` | Model of multirotor_simulator/imu_simulator: imu.hpp and inertial_odometry.hpp |
| `MSim.v` | Model of multirotor_simulator/multirotor_simulator.hpp: the Simulator |
| `SpecDyn.v` | Specification vocabulary for the vehicle model: textbook mechanics over the reals, written out componentwise and independently of the functions of the model |
| `SpecRun.v` | Sequences of calls on the dynamics object |
| `SpecMix.v` | Specification vocabulary: what makes vehicle parameters meaningful, and dissipation |
| `PBase.v` | General lemmas: loops, clamp, outcome relations, real-number tactics |
| `PFloat.v` | Order facts of the binary64 instance |
| `PDyn.v` | Proofs about the dynamics: any arithmetic |
| `PModel.v` | Proofs about the model object and the mixers |
| `PDynR.v` | Proofs about the dynamics over the reals |
| `PPhys.v` | Physics of one step over the reals: Newton, Euler, attitude, rotors |
| `PNoise.v` | Two-run properties of the dynamics: noise parameters, generators, translation |
| `EBase.v` | Concrete objects for the non-vacuity examples and the counterexamples |
| `PVeh.v` | Vehicle-level lemmas over the reals |
| `PMix.v` | Mixers, parameter checks, drag and the signed square over the reals |
| `PWitDyn.v` | Counterexamples and non-vacuity witnesses for the dynamics |
| `PDynMore.v` | Statements about histories and API-level forms of the dynamics lemmas |
| `EDyn.v` | A moving vehicle with out-of-range commands, for non-vacuity examples |
| `TDyn.v` | Property theorems: vehicle dynamics |
| `EVeh.v` | Examples for the parameter and mixer theorems |
| `TVeh.v` | Property theorems: vehicle parameters, mixer, resistance, signed square |
| `SpecPid.v` | Specification vocabulary for the PID controllers |
| `PPid.v` | Proofs about the vector PID: any arithmetic |
| `PPid1.v` | Proofs about the scalar PID: any arithmetic |
| `PPidR.v` | Proofs about the PID controllers over the reals |
| `PPidF.v` | PID in binary64: a zero time step, rounding in the proportional saturation, contamination between axes |
| `EPid.v` | Concrete PID controllers over the reals: witnesses and counterexamples |
| `TPid.v` | Property theorems: the PID controllers |
| `SpecCtl.v` | Specification vocabulary for the flight controllers, written over the reals and independently of the functions of the model |
| `PCtl.v` | Flight controllers in any arithmetic |
| `PCtlR.v` | Flight controllers over the reals |
| `PCtlMix.v` | Rotor allocation and hover over the reals |
| `ECtl.v` | Examples and counterexamples for the controller theorems |
| `TCtl.v` | Property theorems: the flight controllers |
| `SpecImu.v` | Specification vocabulary for the IMU and the inertial odometry |
| `PImu.v` | The IMU and the inertial odometry |
| `EImu.v` | Examples and counterexamples for the sensor theorems |
| `TImu.v` | Property theorems: the IMU and the inertial odometry |
| `SpecSim.v` | Specification vocabulary for the simulator: what a history of calls asked for, read off the history itself |
| `PSim.v` | The simulator: lemmas that hold in any arithmetic |
| `PSimR.v` | The simulator over the reals |
| `PHover.v` | The closed loop at its hover point, over the reals |
| `SpecEuler.v` | Specification of roll, pitch and yaw: the rotation Rz(yaw) Ry(pitch) Rx(roll) |
| `PEuler.v` | Roll, pitch and yaw of a quaternion over the reals |
| `PSimEnd.v` | Whole simulations over the reals |
| `PWell.v` | No undefined behaviour of the simulator in any arithmetic |
| `ESim.v` | Examples and counterexamples for the simulator theorems |
| `TSim.v` | Simulator properties |
| `MText.v` | Model of the text output: the stream operators of common/state.hpp and imu_simulator/inertial_odometry.hpp, and the CsvLogger of examples/fly_example.cpp |
| `SpecText.v` | Specification of the text output: what a reader of comma separated values sees |
| `PText.v` | Lemmas on the text output |
| `MExample.v` | Model of the reference-following flights of examples/fly_example.cpp |
| `SpecExample.v` | Specification vocabulary for the flights of the example program |
| `PExample.v` | Lemmas on the flights of the example program |
| `EText.v` | Examples and counterexamples for the text output and the example flights |
| `TText.v` | Properties of the text output and of the example flights |
| `MConfig.v` | Model of the configuration code of examples/fly_example.cpp and examples/trajectory_fly_example/traj_gen_example.cpp: from the numbers of the configuration file (or from the built-in ones) to the simulator that is flown |
| `SpecConfig.v` | Specification vocabulary for the configuration of the example programs |
| `PConfig.v` | Proofs about the configuration of the example programs |
| `EConfig.v` | Examples for the configuration theorems |
| `TConfig.v` | Property theorems: configuration of the example programs |
| `SpecSet.v` | Specification vocabulary for settings: which call sets what, and the value set last |
| `PSet.v` | Proofs about settings and references |
| `ESet.v` | Examples for the theorems on settings and references |
| `TSet.v` | Property theorems: settings and references are what was last asked for |
| `SpecFile.v` | Specification vocabulary: where the numbers of a configuration file go |
| `PFile.v` | Proofs: where the numbers of a configuration file go |
| `EFile.v` | Examples for the theorems on the configuration file |
| `TFile.v` | Property theorems: where the numbers of a configuration file go |
| `SpecMotion.v` | Specification vocabulary for whole motions: turned scenarios, constant forces, spinning, slowing down by drag |
| `PMotion.v` | Proofs about whole motions over the reals |
| `PGlide.v` | Proofs about unpowered motion over many steps: constant force, free spin, drag, terminal speed |
| `EMotion.v` | Concrete flights for the theorems on whole motions, and counterexamples |
| `TMotion.v` | Property theorems: whole motions (headings, ballistic flight, spinning, drag) |
| `SpecLayout.v` | Specification vocabulary: the documented matrices of the ready-made rotor layouts (docs/CommonConfigurations.md), and what a layout can do |
| `PLayout.v` | Proofs about the ready-made rotor layouts |
| `TLayout.v` | Property theorems: the ready-made rotor layouts |
| `SpecNoise.v` | Specification vocabulary for the process noise of the vehicle |
| `PProc.v` | Proofs about the process noise |
| `TNoise.v` | Property theorems: the process noise |
| `SpecRound.v` | Specification vocabulary for binary64: finite values, closeness to one |
| `PRound.v` | Rounding errors of binary64: every operation whose exact result is below 2^1000 is finite and off by at most a relative 2^-53 plus 2^-1075 |
| `PQuat64.v` | Attitude normalisation in binary64 |
| `PUnit64.v` | The orientation stays a unit quaternion in binary64, along runs |
| `ERound.v` | Concrete binary64 cases: boolean checks that imply the hypotheses |
| `TRound.v` | Property theorems: unit orientations in binary64 arithmetic |
| `MScript.v` | Model of the scripted flights of examples/fly_example.cpp and examples/trajectory_fly_example/traj_gen_example.cpp: the loops that follow no list of references |
| `SpecScript.v` | Specification vocabulary for the scripted flights of the example programs: the calls of the public interface that each of them makes |
| `PScript.v` | Lemmas on the scripted flights of the example programs |
| `PScriptMore.v` | Soundness, landing, logs and references of the scripted flights |
| `PScript64.v` | The clock of the scripted flights in binary64 |
| `EScript.v` | Examples and counterexamples for the scripted flights |
| `TScript.v` | Property theorems: the scripted flights of the example programs |
| `SpecNumber.v` | Specification vocabulary for binary64: numbers of reasonable size |
| `PUp.v` | Magnitudes through binary64 operations: bounds that are powers of two survive rounding |
| `PNumber.v` | Proofs: a step from reasonable numbers gives numbers (binary64) |
| `ENumber.v` | Concrete binary64 cases: boolean checks that imply reasonable size |
| `TNumber.v` | Property theorems: flights of reasonable size never turn into NaN or infinity |
| `SpecReset.v` | Specification vocabulary: what a caller of the flight controller sees |
| `PTwin.v` | Proofs: PID controllers that answer alike whatever limits they hold while saturation is off |
| `PReset.v` | Proofs: resetting the flight controller forgets the past |
| `EReset.v` | A controller that has flown |
| `TReset.v` | Property theorems: resetting the flight controller |
| `SpecTune.v` | Specification vocabulary: what a PID remembers of a flight, and control calls made by hand |
| `PTune.v` | Proofs: the memory of a PID, retuning in flight, control modes by hand |
| `ETune.v` | Concrete controllers retuned in flight |
| `TTune.v` | Property theorems: control modes by hand, and retuning in flight |
| `SpecSteer.v` | Specification vocabulary: which rotors speed up for a turn |
| `PSteer.v` | Proofs: a demanded turn speeds up the rotors that turn the vehicle that way |
| `ESteer.v` | A concrete vehicle that is steered |
| `TSteer.v` | Property theorems: steering |
| `SpecVertical.v` | Specification vocabulary: flights that are asked to go up and down only |
| `PVertical.v` | Vertical requests give vertical flights |
| `EVertical.v` | Concrete vertical flights |
| `TVertical.v` | Property theorems: vertical flights |
| `MReport.v` | Model of the getters that report what the last control calls did |
| `SpecReport.v` | Specification vocabulary: which control call a loop heard last |
| `PReport.v` | Proofs about the reporting getters |
| `EReport.v` | Concrete controllers and what they report |
| `TReport.v` | Property theorems: what the controllers report about their last calls |
| `SpecNav.v` | Specification vocabulary: flying with the inertial odometry running along |
| `PNav.v` | Proofs: what a perfect inertial odometry knows about the flight |
| `ENav.v` | Example flights with perfect sensors |
| `TNav.v` | Property theorems: flying with perfect sensors |
| `SpecShift.v` | Specification vocabulary: the same flight somewhere else |
| `PShift.v` | Proofs: closed-loop flights do not depend on the place |
| `EShift.v` | Example: the same flight somewhere else |
| `TShift.v` | Property theorems: closed-loop flights do not depend on the place |
| `SpecWatch.v` | Specification vocabulary: the flight without its observers |
| `PWatch.v` | Proofs: sensors do not influence the flight, nor does a disarmed controller |
| `EWatch.v` | Examples: flights watched by different sensors, and a disarmed vehicle |
| `TWatch.v` | Property theorems: watching a flight does not change it |
| `SpecRenum.v` | Specification vocabulary: the same vehicle with its rotors numbered differently |
| `PRenum.v` | Proofs: the numbering of the rotors does not matter |
| `ERenum.v` | Example flights of a vehicle with its rotors numbered in two ways |
| `TRenum.v` | Property theorems: the numbering of the rotors does not matter |
| `MClamp.v` | Model of the in-place clamping utility and of the narrowing of its limits |
| `SpecClamp.v` | Specification vocabulary: components within limits |
| `PClamp.v` | Proofs: components within limits |
| `EClamp.v` | Example: a vector of doubles clamped |
| `TClamp.v` | Property theorems: the clamping utility |
| `SpecTour.v` | Specification vocabulary: the calls a tour of references makes |
| `PTour.v` | Proofs: the calls a tour of references makes |
| `ETour.v` | Example: the calls of a tour of two places |
| `TTour.v` | Property theorems: the calls the example flights make |
| `SpecDefault.v` | Specification vocabulary: using objects as they come |
| `PDefault.v` | Proofs: default loops and controllers do nothing; a default vehicle is not a number after one step |
| `EDefault.v` | Examples: default objects |
| `TDefault.v` | Property theorems: objects used as they come |
| `SpecSym.v` | Specification vocabulary: a flight seen in a mirror, turned about the vertical, or flown by a vehicle that is heavier and stronger throughout |
| `PSym.v` | Mirrored, turned and rescaled flights |
| `PSymSim.v` | Mirrored, turned and rescaled flights: controllers and whole simulations |
| `PSymMix.v` | Mirrored, turned and rescaled vehicles: the allocation, and the mirrored mission of one and the same vehicle |
| `ESym.v` | Example flights: mirrored, turned and rescaled; and what breaks the symmetry |
| `TSym.v` | Property theorems: mirrored, turned and rescaled flights |
| `SpecClimb.v` | Specification vocabulary: a climb at a requested speed |
| `PClimb.v` | A climb under a proportional velocity loop and a first-order rotor |
| `PClimbSim.v` | The climb of the simulator follows the scalar recurrence |
| `EClimb.v` | Concrete climbs |
| `TClimb.v` | C95: a requested climb speed is reached without overshoot |
| `SpecTotal.v` | Specification vocabulary: how far a control loop was off in total |
| `PTotal.v` | The integral contribution is the gain times the total error |
| `PHold.v` | A vehicle held at rest by whatever its velocity loop adds to the weight |
| `ETotal.v` | Concrete flights with a standing error and without one |
| `TTotal.v` | C96: integral action leaves no standing error |
| `SpecDrift.v` | Specification vocabulary: two odometries fed with slightly different readings |
| `PDrift.v` | Proofs: how far readings that differ let two odometries drift apart |
| `PDriftSim.v` | Proofs: the odometry of a flight with imperfect sensors |
| `EDrift.v` | Example: a rolling vehicle with a noisy and biased IMU |
| `TDrift.v` | C97: the errors of the odometry grow no faster than those of the sensors allow |
| `SpecEnergy.v` | Specification vocabulary: energy and momentum of a rigid body |
| `PEnergy.v` | Proofs: energy and momentum of a vehicle left alone |
| `PSpinMom.v` | Proofs: the angular momentum of a tumbling vehicle in the world |
| `EEnergy.v` | Example: a tumbling vehicle with principal moments 1, 2 and 3 |
| `TEnergy.v` | C98: a vehicle left alone keeps its energy and its angular momentum |
| `PRoot64.v` | Proofs: signed square and signed root in binary64 |
| `ERoot64.v` | Examples: what rounding does to the signed square and root |
| `TRoot.v` | C18 in binary64 |
| `SpecSink.v` | Specification vocabulary: a descent at a requested speed |
| `PSink.v` | A descent under a proportional velocity loop and a first-order rotor |
| `PSinkSim.v` | The descent of the simulator follows the scalar recurrence |
| `ESink.v` | A concrete descent |
| `TSink.v` | C95: the same for a descent |
| `SpecHeight.v` | Specification vocabulary: a climb to a requested height |
| `PHeight.v` | A climb to a requested height: position gain, velocity gain, first-order rotor |
| `PHeightSim.v` | The climb of the simulator to a height follows the scalar recurrence |
| `EHeight.v` | Concrete climbs to a height |
| `THeight.v` | C99: asked to hold a place above, the vehicle climbs there without overshoot |
| `SpecTrue.v` | Specification vocabulary: the continuous motion of a vehicle, as differential equations |
| `SpecTrueSim.v` | Specification vocabulary: a flight with given rotor commands |
| `PLip.v` | Functions of the state that are Lipschitz on every ball |
| `PTrue.v` | Convergence of the explicit Euler steps to the differential equations |
| `PTrueSim.v` | The same for the simulator in motor mode |
| `ETrue.v` | A motion known in closed form, and its simulation |
| `TTrue.v` | C100: with smaller steps the simulated flight approaches the true motion |
| `SpecExact.v` | Specification vocabulary for binary64: flights that are straight to the last bit |
| `PExact.v` | Proofs: equal rotor speeds lift a quadrotor straight up, in binary64 |
| `PExactRun.v` | Proofs: a flight with equal rotor speeds stays straight to the last bit |
| `EExact.v` | A concrete straight flight in binary64 |
| `TExact.v` | Property theorems: in double precision equal rotor speeds lift a quadrotor straight up |
| `SpecPidNum.v` | Specification vocabulary for binary64: controllers fed with sensible numbers |
| `PPidNum.v` | Proofs: a controller fed with sensible numbers gives numbers, whatever its history |
| `EPidNum.v` | Concrete controllers in binary64 |
| `TPidNum.v` | Property theorems: a controller fed with sensible numbers gives numbers |
| `SpecImuNum.v` | Specification vocabulary for binary64: sensors and odometry fed with sensible numbers |
| `PImuNum.v` | Proofs: sensors and odometry fed with sensible numbers give numbers, whatever their history |
| `EImuNum.v` | A concrete sensor and odometry in binary64 |
| `TImuNum.v` | Property theorems: sensors and odometry fed with sensible numbers give numbers |
| `PNorm64.v` | Proofs: Eigen's normalized() in binary64 has coefficients of size at most four, whatever the length of the vector |
| `SpecCtlNum.v` | Specification vocabulary for binary64: the flight controller fed with sensible numbers |
| `PCtlNum.v` | Proofs: the flight controller fed with sensible numbers commands numbers, whatever its history |
| `ECtlNum.v` | A concrete flight controller in binary64 |
| `TCtlNum.v` | Property theorems: the flight controller fed with sensible numbers commands numbers |
| `SpecSimNum.v` | Specification vocabulary for binary64: a simulator whose vehicle stays within a range |
| `PSimNum.v` | Proofs: while the vehicle stays within a range, every number the simulator shows is finite |
| `ESimNum.v` | A concrete flight of the whole simulator in binary64 |
| `TSimNum.v` | Property theorems: while the vehicle stays within a range, everything the simulator shows is a number |
| `SpecSum.v` | Specification vocabulary for binary64: sums of speed times step along a run |
| `PSum.v` | Proofs: rounding errors of the integration add up no faster than linearly |
| `ESum.v` | Concrete runs in binary64: sums of speed times step |
| `TSum.v` | Property theorems: rounding errors of the integration add up no faster than linearly |
| `MPlot.v` | Model of examples/plot_results.py, run without --auto_update: reading the log and drawing the four figures |
| `SpecPlot.v` | Specification of reading a flight log back and drawing it |
| `PPlot.v` | Reading a flight log back |
| `PPlotFig.v` | The figures drawn from a flight log |
| `PPlotR.v` | Printed errors and the limits of the picture, in exact arithmetic |
| `EPlot.v` | Logs that are read back, and logs that are not |
| `TPlot.v` | Properties C107 to C109: the plotting script and the logs it reads |
| `SpecRate.v` | Specification vocabulary: a requested rotation rate |
| `PRate.v` | A rate loop that is a mere gain, with first-order rotors: two rotors are sped up as in a climb, two are slowed down as in a descent |
| `PRateSim.v` | A requested rotation rate: the simulator follows the scalar recurrence |
| `PRateAir.v` | Where the air resists turning: a state that the rate loop does not leave |
| `ERate.v` | Concrete requests for a rotation rate |
| `TRate.v` | C110: a requested rotation rate is reached without overshoot |
| `SpecDoc.v` | The equations of motion as the documentation states them (docs/Dynamics.md, docs/Kinematics.md), written down from that text |
| `PDoc.v` | Proofs for C111: the documented and the simulated physics |
| `EDoc.v` | C111: vehicles that move as documented, and vehicles that do not |
| `TDoc.v` | C111: the vehicle obeys the documented equations of motion |
| `MYaml.v` | Model of how examples/fly_example.cpp and examples/trajectory_fly_example/traj_gen_example.cpp read their configuration file, and of their [main] functions |
| `SpecYaml.v` | Specification vocabulary: what a configuration file says |
| `SpecShipped.v` | Specification vocabulary: examples/simulation_config.yaml as it is shipped, as a tree and as numbers |
| `PYaml.v` | Proofs for C112: reading the configuration file |
| `PYamlMain.v` | Proofs for C112: the programs on a configuration file |
| `EYaml.v` | The shipped configuration file, and files that are not like it (C112) |
| `TYaml.v` | Property theorems: an example program flies what its configuration file says |
| `PTick.v` | The accumulated clock of an example flight: when it switches, when it runs past the list, and its value in binary64 for steps of a millisecond |
| `EYaml64.v` | The shipped configuration file in binary64 (C112) |
| `PTickTour.v` | Tours of references and their clock, in any arithmetic |
| `TClock.v` | Property theorems: the clock of the example flights |
| `PWind.v` | Integral action that is bounded by anti-windup |
| `EWind.v` | A flight whose integral stands at its bound |
| `TWind.v` | C96 with anti-windup: integral action leaves no standing error unless it stands at its bound |
| `SpecLean.v` | Specification vocabulary: leaning to one side |
| `PLean.v` | The commanded rates lean the vehicle to the side it is to accelerate to |
| `ELean.v` | Examples and counterexamples for leaning to one side |
| `TLean.v` | Property theorems: leaning to the side the vehicle is to fly to |
| `SpecLag.v` | Specification vocabulary: a rotor following its command in binary64 |
| `PLag.v` | A rotor in binary64: each step moves it towards its command, never past it |
| `PLagRun.v` | Rotors in any arithmetic, and whole runs in binary64 |
| `PPlace.v` | Everything but the position evolves independently of the position, in every arithmetic |
| `PPid64.v` | The vector PID in binary64: the integral stays within its bound, the first call has no derivative |
| `ELag.v` | A rotor that stops short of its command, and a vehicle too far away to move |
| `EPid64.v` | A controller in binary64 whose integral is held at its bound, and its first call after a reset |
| `TLag.v` | Theorems on the arithmetic the simulator runs in: C114 and C115 (C10 and C19), C22 and C24 in binary64, after the exact versions in TDyn and TPid |
| `SpecLower.v` | Specification vocabulary: a descent to a requested height |
| `PLower.v` | A descent to a requested height: position gain, velocity gain, first-order rotor |
| `PLowerSim.v` | The descent of the simulator to a height follows the scalar recurrence |
| `ELower.v` | A concrete descent to a height |
| `TLower.v` | C99: asked to hold a place below, the vehicle descends there without undershoot |
| `SpecFollow.v` | Specification vocabulary: runs that ignore the references a mode does not follow |
| `PFollow.v` | C61: which references a mode follows, in every arithmetic |
| `EFollow.v` | C61: a flight that is told a velocity it does not follow |
| `TFollow.v` | C61: whole flights ignore the references their mode does not follow, in every arithmetic |
| `PDrag64.v` | Drag in binary64 |
| `EDrag64.v` | C16: the drag of a vehicle at 3 and -7 m/s |
| `TDrag64.v` | C16 in double precision: drag opposes the motion on every axis and grows with the speed |
| `SpecMono.v` | Specification vocabulary: controllers that answer a larger error with no smaller command |
| `PMono.v` | A larger error never gives a smaller command: exact arithmetic |
| `PMono64.v` | A larger error never gives a smaller command: double precision |
| `PMono1.v` | A larger error never gives a smaller command in double precision: given rates and the scalar controller |
| `EMono.v` | Controllers that answer a larger error with a larger command, and two that do not |
| `TMono.v` | Property theorems: a larger error never gives a smaller command |
| `SpecHigher.v` | Specification vocabulary: being asked for more height |
| `PHigher.v` | Asked for more height, an upright vehicle never demands less thrust |
| `EHigher.v` | Asked for more height: a vehicle that obeys and one upside down that does the opposite |
| `THigher.v` | Property theorems: asked for more height, never less thrust |
| `SpecThrottle.v` | Specification vocabulary: opening the throttle |
| `PThrottle.v` | Opening the throttle speeds up every rotor |
| `PThrottle64.v` | Opening the throttle slows no rotor in double precision |
| `EThrottle.v` | Opening the throttle: a vehicle whose rotors all speed up and one with a rotor that slows down |
| `TThrottle.v` | Property theorems: opening the throttle |
| `PMono1d.v` | A larger error never gives a smaller command in double precision: the scalar controller with given rates |
| `EMono1d.v` | A scalar controller in double precision that is given two errors with their rates |
| `TMono1d.v` | Property theorems: larger errors, the scalar controller with given rates in double precision |
| `SpecHigher64.v` | Specification vocabulary: being asked for more height, in double precision |
| `PHigher64.v` | Asked for more height, an upright vehicle never demands less thrust: double precision |
| `EHigher64.v` | Asked for more height in double precision: a quadrotor in the middle of its flight |
| `THigher64.v` | Property theorems: asked for more height, never less thrust, in double precision |
| `SpecDamp.v` | Specification vocabulary: rotors that turn the vehicle one way or the other |
| `PDamp.v` | The faster the vehicle is found to turn, the less its rotors push it that way |
| `EDamp.v` | A vehicle whose rotors brake its rotation, and a request that slows down a rotor that should help |
| `TDamp.v` | Property theorems: rotors that brake a rotation |
| `SpecDampAny.v` | Specification vocabulary: rotors that brake a rotation, any number of them |
| `PDampAny.v` | The faster the vehicle is found to turn, the less its rotors push it that way: any allocation |
| `EDampAny.v` | A vehicle with six rotors that brakes its roll |
| `TDampAny.v` | Property theorems: rotors that brake a rotation, any allocation |
| `SpecDamp64.v` | Specification vocabulary: rotors that brake a rotation, in double precision |
| `PDamp64.v` | The faster the vehicle is found to turn, the less its rotors push it that way: double precision |
| `EDamp64.v` | Rotors that brake a rotation in double precision: a quadrotor in the middle of its flight |
| `TDamp64.v` | Property theorems: rotors that brake a rotation, in double precision |

## 3. Properties

`proved`: the statement of `properties.jsonl` holds of the model. `partial`: part of it is false of the
code (theorems ending in `_refuted`, findings in section 7) or only part of it is proved (`_partial`).

| Id | Title | Status | How, and what is missing |
|---|---|---|---|
| C01 | Rotor speeds never leave their limits | proved | `process` over any ops with irreflexive `<`; case analysis of clamp; induction over step sequences; Proved for all inputs of the model |
| C02 | Vehicle orientation stays a unit quaternion | proved | real arithmetic; binary64; Exact over the reals. In binary64 within 2^-49 along every run of finite positive steps with body rates below 2^400 rad/s from a start of squared length in [1/2, 3/2] |
| C03 | A non-positive time step is rejected without side effects | proved | any ops; the first branch; converse by showing no other branch throws; Proved for all inputs of the model |
| C04 | Long steps are split into 10 ms sub-steps that add up to dt | partial | false: `ceil(dt/0.01)` sub-steps.  Prove the exact number of sub-steps, overshoot bound, refutation over reals and over binary64 (dt = 0.07), UB for dt beyond INT_MAX sub-steps; False of the code as worded: ceil(dt/0.01) full steps are taken. Refuted over the reals and in binary64; the exact sub-step law and the overflow are proved |
| C05 | Free fall accelerates at the configured gravity for every mass | partial | false: acceleration is g/m.  Refutation plus exact law, true iff m = 1 (or g = 0); False of the code: acceleration is g/m. Refuted; the exact law is proved |
| C06 | Translational step is Newton's law integrated by explicit Euler | proved | reals; exact equations against a written-out specification; Proved for all inputs of the model |
| C07 | Rotational step is Euler's rigid-body equation | proved | reals; exact equations against a written-out specification; The rigid-body law holds with the force-noise sample in the place of the torque noise (see C08) |
| C08 | The moment noise parameter drives the torque noise | partial | false: torque noise is the force sample; moment parameter has no influence on motion (non-interference over any ops); False of the code: torque noise is the force sample. Refuted; non-interference of the moment parameter is proved for all histories |
| C09 | Noise off means reproducible | proved | any ops, two generators, relational induction; zero auto-correlation over reals; Proved for all inputs of the model |
| C10 | Rotors approach the command as a first-order lag without overshoot | proved | reals; one-step contraction and limit; Proved in exact arithmetic; with roundings see C114 |
| C11 | Rejected parameters leave the model unchanged | proved | any ops; Proved for all inputs of the model |
| C12 | Accepted parameters are physically meaningful | partial | false: witnesses (zero mass, diag(-1,-1,1) inertia, zero time constant, short motor list -> UB); exact characterisation of what is checked; False of the code: zero mass, indefinite inertia, zero time constants, NaN and short motor lists are accepted. Refuted; what validation guarantees is characterised exactly and meaningful symmetric parameters are proved accepted |
| C13 | The mixer matrix getter returns the mixer in use | partial | false: member never written; False of the code: the member returned is never written. Proved that every reachable model returns an indeterminate value |
| C14 | Equal rotor speeds give pure vertical thrust | proved | reals; list induction for arbitrary rotor count; Proved for all inputs of the model |
| C15 | The mixer computes the physical wrench of the rotors | proved | reals; list induction for arbitrary rotor count; Proved for all inputs of the model |
| C16 | Drag and aerodynamic moment never add energy | proved | reals; inequalities; in double precision rounding is monotone and odd, so each component keeps its sign; Proved: the drag force never does positive work and the aerodynamic moment neither when its matrix is positive semidefinite; in double precision drag opposes the motion on every axis and grows with the speed |
| C17 | Hover is a fixed point | proved | reals; fixed point by induction over steps; Proved for all inputs of the model |
| C18 | Signed square and signed root are inverse | proved | reals; in binary64 relative error of each rounding, and the root of a rounded square is closer to the number than half a unit in the last place; Proved over the reals, and on doubles with the stated error. C18_rounding shows the limits are needed: the square of the root of 2 is not 2, 2^-600 squares to zero and 2^600 to infinity |
| C19 | Physics does not depend on where the vehicle is | proved | reals; relational induction; Proved in exact arithmetic; with roundings the positions need not stay apart by the same vector, everything else does not depend on the position (C115) |
| C20 | PID output respects its saturation limits after any history | partial | any ops for per-axis and scalar; reals for proportional with 0 in range; Per-axis and scalar saturation proved for any arithmetic with irreflexive <, so for IEEE doubles too (a NaN output exceeds no limit). Proportional saturation proved over the reals for ranges containing zero; refuted in binary64 by one rounding error and over the reals for ranges excluding zero |
| C21 | Proportional saturation keeps the direction of the output | partial | reals; refuted without 0 in range; Proved over the reals for ranges containing zero, with the factor maximal; refuted for accepted ranges that exclude zero |
| C22 | Anti-windup bounds the integral after any history | partial | any ops with hypothesis `not (aw < -aw)`; induction over histories; Proved for non-negative constants, in exact arithmetic and (vector controller) in double precision; a negative constant is accepted and breaks the claim (refuted); exact condition for undefined behaviour of the scalar PID |
| C23 | Reset forgets the past | proved | any ops; simulation relation over call sequences; Proved for all inputs of the model |
| C24 | No derivative kick on the first call | proved | reals (`0/dt = 0`); Proved for all inputs of the model in exact arithmetic; in double precision the derivative part is proved zero for the vector controller with numbers of sensible size |
| C25 | The integral is reset when the saturated error changes sign | partial | false: unreachable when the constant is positive; dead-flag theorem over all histories + witness; False of the code: the comparison is strict and the accumulator is clamped, so the flag has no effect while anti-windup is on. Refuted; absence of any effect proved for all histories; the flag works when anti-windup is off |
| C26 | Parameters read back can be written back | partial | false once saturation was disabled; true otherwise; False of the code: writing back re-enables a disabled saturation. Refuted; exact condition proved |
| C27 | A rejected saturation request changes no limits | partial | false: witness; true for the scalar PID; False of the vector PID (limits are written before later axes are validated); true of the scalar PID |
| C28 | A zero time step cannot corrupt the controller | partial | false in binary64: NaN for every finite error and for every later call until reset; False of the code: NaN until the next reset, proved for every controller and error in binary64 |
| C29 | Unsaturated PID equals the textbook sum | proved | reals, induction over calls; Proved for all inputs of the model |
| C30 | Vector PID axes are independent scalar PIDs | partial | any ops when every axis has non-zero anti-windup or all are zero; refuted for mixed zero/non-zero; Proved for every history when anti-windup is on for all or no axes and limits are valid on all or no axes; refuted otherwise, and in binary64 with an infinite error |
| C31 | Commanded collective thrust is never negative | proved | any ops with irreflexive `<`; Proved for all inputs of the model |
| C32 | Desired attitude is a rotation aligned with thrust and yaw | proved | reals; Proved for all inputs of the model |
| C33 | Attitude control is at rest exactly when aligned | partial | reals; Zero rate when aligned, the sine law, the short way for errors below a half turn and the decrease of the attitude mismatch are proved; "exactly when" is refuted: facing exactly backwards also commands zero rates |
| C34 | Motor allocation is exact | proved | reals; 4x4 cofactor inverse; The torque is the one of the rigid-body law evaluated at the desired (not the measured) body rate, as the code does |
| C35 | Cascade at its set point commands hover | proved | reals; Proved for all inputs of the model |
| C36 | Yaw-rate mode never divides by zero | proved | reals; Proved for all inputs of the model |
| C37 | Trajectory controller honours its acceleration limits | partial | false: feed-forward is added after saturation; False of the code: the feed-forward is added after saturation. Refuted; the feedback part alone is proved within the limits |
| C38 | The acro controller reports the thrust it computed | partial | false: member never assigned; False of the code: a local variable shadows the member, the getter is constantly zero. Refuted; constancy proved for every history |
| C39 | Noise-free IMU reads the true values in its own frame | proved | reals / any ops; Needs a unit mounting quaternion (the code inverts it without normalising) |
| C40 | IMU error model | proved | reals / any ops; The initial bias is drawn with the noise variance, as the code does; the reading law needs a unit mounting quaternion |
| C41 | Reading an IMU measurement is memory-safe | partial | false: dangling reference (modelled as UB outcome of the call); False of the code: the pair returned by reference is built from a temporary, so every read through it is undefined. Refuted for every IMU |
| C42 | Odometry integrates a unit orientation and filtered rates | proved | real arithmetic; binary64; The filters start from zero, so the range statement includes zero |
| C43 | The IMU receives the force in the body frame | partial | false: rotated by q instead of q^-1; the composition with odometry recovers the world vector; False of the code: update_imu applies the orientation instead of its inverse. Refuted; the reading an ideal IMU gives and the round trip through the odometry are proved |
| C44 | The vehicle is never below an enabled floor | proved | any ops with irreflexive `<` where needed; induction over API histories; Proved for all inputs of the model |
| C45 | Touching the floor stops the vehicle and only that | proved | any ops with irreflexive `<` where needed; induction over API histories; Proved for all inputs of the model |
| C46 | A disarmed vehicle commands no rotor speed | partial | any ops with irreflexive `<` where needed; induction over API histories; Zero command and frozen controller proved for all histories; rotors run down exponentially when they may stop. Refuted for rotors with a positive minimum speed, which keep turning |
| C47 | Switching control mode holds the vehicle where it is | partial | any ops with irreflexive `<` where needed; induction over API histories; References and mode proved. The last part is false: integrals accumulated in the old mode act in the new one (refuted) |
| C48 | HOVER is POSITION hold | proved | any ops with irreflexive `<` where needed; induction over API histories; Proved for all inputs of the model |
| C49 | Each update touches only its own part | proved | any ops with irreflexive `<` where needed; induction over API histories; Proved for all inputs of the model |
| C50 | A failed dynamics update leaves the simulator unchanged | partial | any ops with irreflexive `<` where needed; induction over API histories; Proved above the floor or with the floor disabled; false below it: the external force is left set (refuted) |
| C51 | Euler angles reproduce the attitude | proved | reals; explicit rotation matrices; Proved for every non-zero quaternion that is not vertical, with uniqueness; vertical attitudes characterised |
| C52 | Printed states can be split into their values | partial | any number formatter that emits no comma; State and odometry text proved for every arithmetic and formatting; print_state is refuted: three separators are missing for every N (law proved) |
| C53 | A complete vehicle never runs into undefined behaviour | proved | any arithmetic with sane comparisons; invariant over histories; Proved for all inputs of the model |
| C54 | A requested yaw rate becomes the commanded body yaw rate | partial | reals; sine law; False of the code: the commanded rate is k*sin(rate/k). Exact law proved, refuted at rate = pi*k |
| C55 | Each control call records its set points and touches only its own loops | proved | any arithmetic; Proved for all inputs of the model |
| C56 | Reseeding and resetting the IMU reproduces its noise | proved | any generator with a pair cache; For generators whose normal distribution caches the second value of each pair (as std::normal_distribution does) |
| C57 | Odometry reports the vehicle's acceleration | partial | reals; False of the code for masses other than 1: the value is mass times acceleration (refuted; law proved) |
| C58 | IMU mounting does not change the odometry | partial | reals; False of the code: rates are reported in the mounting frame (refuted; law proved) |
| C59 | A landed, disarmed vehicle stays where it stands | proved | any arithmetic / reals; induction over histories; Proved for all call histories with dynamics steps up to 10 ms |
| C60 | Hover holds the vehicle still | partial | reals; invariant of the closed loop; False when vehicle and controller are given the same mass (not 1) and gravity: drift law and counterexample. Proved with the gravity parameter set to the weight m*g0, the value the dynamics treats as a force |
| C61 | Each control mode follows only its own references | proved | any arithmetic; whole flights by a two-run relation that every call preserves; Proved in every arithmetic, for one update and for whole flights (any calls but a change to motor or yaw-rate mode, whose references a mode change does not reset: C61_stale_motors) |
| C62 | The flight log is a well-formed table | partial | any formatter; Proved when neither the time nor a reference is NaN; with a NaN the row loses columns (refuted in binary64; a row is complete exactly when there is no NaN) |
| C63 | The example flights visit their references and end | partial | reals and binary64; the calls made are given by an inductive description for any arithmetic; Proved in exact arithmetic, including termination and the log. In any arithmetic the accumulated clock decides: C63_overrun and C63_in_range give the two cases. False in binary64: two references, 1.1 s, 5 ms steps index past the list (undefined behaviour), and so does the shipped velocity flight (C112_shipped_velocity_refuted) |
| C64 | The example programs fly a vehicle their controller is set up for | proved | any arithmetic; reals for the delivered wrench; Proved over the reals for thrust and torque; the bookkeeping part holds in every arithmetic, absence of undefined behaviour also in binary64 for the built-in configuration. Saturation of rotor speeds by the vehicle itself is C01 |
| C65 | PID settings read back are the ones last set | proved | any arithmetic; last-write induction; Proved for every arithmetic. While vector saturation is off the stored limits are not specified (a half-accepted range is kept, see C27) |
| C66 | Simulator references stay as requested | proved | any arithmetic; frame induction; Proved for every arithmetic and every call history, including throwing calls |
| C67 | Controller parameters reach the loop they are meant for | proved | any arithmetic; projection of histories; Proved for every arithmetic; replacing a whole sub-controller through a reference getter is modelled as its setter calls |
| C68 | Setting a part of the simulator equals building with it | proved | any arithmetic; Proved for every arithmetic, provided the first construction is defined |
| C69 | Every number of the configuration file ends up where it says | proved | any arithmetic; Proved for every arithmetic with sane comparisons. The parsing of the file is not modelled: a document is the collection of numbers looked up |
| C70 | The motion does not depend on the compass heading | partial | real arithmetic; Proved for every rotation when there is no drag, and for quarter turns about the vertical with drag. Refuted with drag for other headings: the force squares each world component separately |
| C71 | Under a constant force the vehicle follows the parabola | proved | real arithmetic; Proved over the reals. Acceleration is the force divided by the mass; gravity enters as a force (see C05) |
| C72 | A constant body rate turns the vehicle at that rate | partial | real arithmetic; The rate is kept, but each step turns by 2 atan(|w| dt/2) instead of |w| dt: refuted; the exact law and a third-order bound of the lag are proved |
| C73 | Drag slows the vehicle down and never turns it around | partial | real arithmetic; Proved when drag * speed * dt <= mass. Refuted in general: when drag * speed * dt > 2 mass the velocity flips at every step and grows geometrically |
| C74 | A falling vehicle approaches its terminal speed | proved | real arithmetic; Proved over the reals under a step-size condition; the terminal speed is that of the force, not of the mass times gravity (see C05) |
| C75 | The ready-made layouts are the documented ones | partial | real arithmetic; Proved for X and +. The documented hexarotor matrix is refuted: it is unbalanced (equal speeds would roll the vehicle). What the code builds, a regular hexagon with alternating directions, is proved |
| C76 | The ready-made layouts can produce every thrust and torque | proved | real arithmetic; Proved over the reals; speed limits are not considered (C01) |
| C77 | Process noise has the configured density whatever the step | proved | real arithmetic; Proved over the reals for every generator. The torque receives the force sample (C08), also stated here |
| C78 | The scripted example flights make the calls they promise and end | partial | any arithmetic, reals and binary64; Proved over the reals; in binary64 when the step is at least 2^-51 of the duration. Refuted for smaller steps: the accumulated time stops growing and the flight never ends. The trajectory generator is an arbitrary function (call lists: a function of time) |
| C79 | A flight of reasonable size never turns into NaN or infinity | proved | binary64; Binary64, by exponent bounds through every operation of a step. C79_bound_needed shows that the bound is needed: a finite velocity of 2^600 with zero drag gives NaN in one step |
| C80 | Resetting the whole controller forgets every past flight | proved | any ops; the state a reset discards is never read again (relational induction over calls); Any arithmetic. Settings are compared through the public getters, plus the saturation flag of each loop |
| C81 | A control mode is the chain of its conversions | proved | any ops; both ways end in controllers that differ in recorded set points only; Any arithmetic. By hand, the set points that the getters report are not recorded; nothing else differs |
| C82 | Retuning in flight is as if the new gains had been there from the start | proved | any ops; the memory is a function of the story (relational induction over histories); Any arithmetic. Scalar controller: for histories without undefined behaviour |
| C83 | A demanded turn speeds up the rotors that turn the vehicle that way | proved | reals; first call after a reset (C24), exact allocation (C34), order of the signed squares; Over the reals, first acro call after a reset, per-axis saturation. The expectations of the INDI unit test are instances |
| C84 | A vehicle that is asked to go up or down goes neither sideways nor turns | proved | reals; invariant of the whole simulator over any history; the PID, the attitude law, the allocation, the dynamics and the floor each keep the vertical; Over the reals, process force noise off, outer-loop limits around zero sideways. In binary64 the attitude is renormalised at each step and the inverse mixer is rounded, so equality is not claimed there |
| C85 | The controllers report the errors and outputs of the last control call | partial | induction over histories (any scalar type); case analysis over requests; the claim for the derivative-error getter is refuted by a witness; The claim for the derivative-error getter is false of the code (C85_derivative_refuted): it is not written by the two-argument call. C85_derivative states what it does report |
| C86 | With perfect sensors the odometry knows the flight | partial | reals; invariant over rounds relating odometry, IMU and vehicle; the claim for the same instant is refuted by a flight that starts to roll; Over the reals, steps up to 10 ms (longer ones are split in the vehicle but not in the odometry). The attitude of the same instant is refuted (C86_attitude_refuted); C86_attitude gives what holds |
| C87 | A closed-loop flight is the same everywhere | partial | reals; simulation relation between the two simulators kept by every call; refuted upwards without a floor; Over the reals. False upwards when no floor was ever enabled (C87_upwards_refuted), since arming requests the stored floor height 0 |
| C88 | Watching the flight does not change it | proved | any arithmetic; simulation relation on everything but the sensors; Proved for all inputs of the model |
| C89 | The numbering of the rotors does not matter | proved | reals; simulation relation for a permutation of the rotors, cofactors of the allocation matrix; Over the reals: sums over the rotors are reordered, which rounding does not allow in binary64 |
| C90 | Clamping a vector brings each component within its limits | partial | any arithmetic; binary64 through Flocq rounding to 24 bits and back; C90_brought_in holds for any arithmetic with respect to the limits after conversion to float. The caller's double limits are exceeded (C90_double_limits_refuted), by at most one part in 2^24 (C90_double_limits_partial); limits beyond the range of float are undefined (C90_out_of_range_refuted); limits that are floats are respected exactly |
| C91 | Objects used as they come do nothing | partial | reals by invariant; the last sentence refuted in binary64 by propagation of not-a-number; Loops and controller proved. False for the vehicle (C91_vehicle_refuted): default mass, inertia and motor time constants are zero, so one update makes rotor speeds and body rates not-a-number, without an error |
| C92 | A mirrored mission gives the mirror image of the flight | partial | one simulation relation for mirror, turn and scale, kept by every call; the same-vehicle form by composition with the renumbering of C89; Proved for PID loops without the integral reset on sign change and with symmetric limits. With the reset switched on it is false (C92_reset_refuted): a zero error counts as positive, so a negative integral is dropped where a positive one stays |
| C93 | A closed-loop flight does not depend on the compass direction | proved | one simulation relation for mirror, turn and scale, kept by every call; the same-vehicle form by composition with the renumbering of C89; Proved for all headings. Drag-free only: the drag law works per world axis (see the finding on drag and heading) |
| C94 | A vehicle that is heavier and stronger in proportion flies the same way | partial | one simulation relation for mirror, turn and scale, kept by every call; the same-vehicle form by composition with the renumbering of C89; Proved without floor and outside ACRO. There it is false: arming in ACRO requests a thrust of 9.81 whatever the mass (C94_acro_refuted), and the floor pushes with gravity term times mass, which grows with the square of the factor (C94_floor_refuted) |
| C95 | A requested climb or descent speed is reached without overshoot | partial | scalar recurrence of speed error and rotor speed with an invariant region and a decreasing energy; the simulator follows the recurrence round by round; Proved for climbs and descents without drag; a descent may ask for at most half the weight less of thrust. With drag a mere gain cannot hold the requested speed (C95_drag_refuted). Integral and derivative action are not covered (but see C96) |
| C96 | Integral action leaves no standing error | partial | books kept per loop and axis, balanced by every call; a bounded sum of converging terms has limit zero; Proved for loops with a free integral, and for loops with anti-windup whatever the reset flag (C96_bounded, C96_settles_bounded, C96_settles_inside): a standing error is zero, or the integral stands at its bound for ever, on the side of the error. Without integral gain it is false (C96_gain_only_refuted), and so it is with a bound that is too small (C96_bound_refuted): the vehicle hangs still while asked to rise |
| C97 | The errors of the odometry grow no faster than those of the sensors allow | proved | induction over the readings with the distances of attitude, velocity and position; normalisation of quaternions of length at least one does not increase distances; Proved in exact arithmetic. The odometry integrates the force instead of the acceleration and runs one step ahead (C86), so the flight is compared with mass times the velocity and with the next attitude |
| C98 | A vehicle left alone keeps its energy and its angular momentum | partial | exact energy balance of the explicit Euler step; discrete Gronwall bound from Cauchy-Schwarz for the inertia; exact comparison of the momentum step with the attitude step; False as stated (C98_kept_refuted): energy grows in every step. Proved instead: the exact growth while falling, and for tumbling that energy never falls, that after a time t it has grown by at most 4 hi t dt E0^2 / lo^2 and that the angular momentum has moved by at most 4 t dt E0 sqrt(hi E0) / lo, so both are kept in the limit of small steps |
| C99 | Asked to hold a place above or below, the vehicle flies there without overshoot | proved | the closed loop reduces to a recurrence in distance, speed and rotor speed; an invariant cone keeps the speed below twice what the distance asks for and a weighted sum shrinks by a fixed factor; the descent with its own invariant (the rotor behind its hover speed, lift convex in the speed) and a decay factor of a third of the outer gain; Proved for the climb to a higher and the descent to a lower place from hanging still; C99_gains_matter shows that the bound on the gains cannot be dropped |
| C100 | With smaller steps the simulated flight approaches the true motion | proved | every right-hand side is Lipschitz on balls (closure under sums, products, square roots of squares); a general Euler convergence theorem with a discrete Gronwall bound and a confinement argument is applied to the step of the model, whose renormalised attitude differs from the plain increment by order dt^2; The solution of the differential equations is a hypothesis, its existence is not proved in general (C100_case gives one in closed form). Constant commands, so motor mode; floor off, no noise |
| C101 | In double precision equal rotor speeds lift an upright quadrotor straight up to the last bit | proved | rounding is symmetric and doubling is exact, so the four signed products cancel in the sums; every later operation keeps zeros, by induction over the steps on top of the no-overflow bounds of C79; Holds for any order in which the four rotor terms are added, not with fused multiply-add. Hexarotors are not claimed. Size hypotheses as in C79 |
| C102 | A PID controller fed with sensible numbers never gives NaN or infinity, whatever its history | proved | an addend at least 2^55 times smaller cannot push a rounded sum beyond a power of two, which bounds the integral and the derivative filter for ever; invariant over every public call; the case of limits that exclude zero by computing in the binary64 model; C102_band_refuted shows that the condition on the limits is needed; the controller accepts such limits |
| C103 | The IMU and the odometry fed with sensible numbers never give NaN or infinity, whatever their history | proved | the same argument for biases, velocity and position; the inverse of a nearly unit quaternion has bounded parts; invariant over every public call; Noise settings must not be negative; the code does not check this |
| C104 | The flight controller fed with sensible numbers commands numbers, whatever its history | proved | a vector divided by its rounded length has coefficients of at most four, also for subnormal lengths; bounds through the cascade; invariant over every public call; The sine and cosine of the C library are assumed to return numbers between -1 and 1 for a finite angle (hypothesis trig_range) |
| C105 | While the motion stays of reasonable size, nothing the simulator shows is NaN or infinite | proved | the invariants of C98 and C102 to C104 put together and kept by every call, floor contact included; the bounds on the motion turn the finite state into sensible inputs of the other parts; The sine, cosine and arc tangent of the C library are assumed to return numbers in their range (trig_range, atan_range). Changes through the mutable references are not part of the histories; C102 to C104 cover the objects themselves. C105_tiny_yaw_gain_refuted shows that a positive but tiny yaw gain must be excluded |
| C106 | Rounding errors in the reported motion add up no faster than linearly | proved | half a unit in the last place per operation, finite results have finite operands; induction over the run; Steps longer than 10 ms, which the code splits, are not covered. C106_exact_refuted shows that the sum is not met exactly |
| C107 | The plotting script reads every flight log back exactly as it was logged | partial | the text of the log, line by line and field by field, is followed through the csv reader and the dictionary; rows of full length give every column; Holds for logs without NaN references. With NaN in every row the columns shift silently (C107_nan_refuted), with NaN in some rows the script ends with an exception (C107_mixed). Number format and float() enter through number_printer and reads_back |
| C108 | Each panel shows the quantity it names, with its reference and estimate, and the printed error is the mean distance from the reference | proved | the columns of C107 are put through the drawing code; membership of each name in the header is decided once; The printed error is the mean distance of the numbers; for yaw this is not the angle between the headings (C108_yaw_turn_refuted). Colours, line styles and windows are not modelled; the mean is taken in exact arithmetic |
| C109 | The picture in space shows the whole flight | partial | the range is shown to bound all three coordinates; z starts at zero; x and y always lie within the range; z exactly if it is not negative (C109_view). C109_below_refuted and C109_reference_refuted give flights and references that are not shown |
| C110 | A requested rotation rate is reached without overshoot | proved | an exact recurrence of rate error and rotor difference is derived from the simulator round; an invariant cone (the pending change of rate never exceeds what is asked) gives monotony and the geometric bound; Conditions in the statement; C110_thick_air_refuted shows that without them (air resisting turning) the rate can stay away from the requested one forever |
| C111 | The vehicle obeys the documented equations of motion | partial | the documented formulas are written down from the text and subtracted from the laws of C06 and C07; what remains are gravity, drag and aerodynamic torque; As worded false of the code: gravity (C111_gravity_refuted), drag (C111_drag_refuted) and aerodynamic torque (C111_aero_refuted) are not the documented ones. C111_documented_partial says exactly when a step is the documented one, C111_force by how much the force differs. The documentation contradicts itself in the pitch component (C111_pitch_refuted) and the order of the quaternion product (C111_attitude_refuted) |
| C112 | An example program flies what its configuration file says, or refuses the file | partial | assigning to the handle changes the document only at places that are not read again, so the reads equal reads of the original tree; each read is then a place in the tree; Proved for all four programs (C112, C112_velocity, C112_turning, C112_trajectory), for incomplete, absent and unparsable files and for the shipped file (C112_shipped, C112_shipped_lands, C112_shipped_binary64). Partial: a reference list that is present without a triple is not refused but indexed (C112_empty, C112_empty_refuted), an entry with a default written without a value is an exception, not the default (C112_valueless_refuted), and in binary64 the velocity flight of the shipped file runs past its list at its end (C112_shipped_velocity_refuted). Text to tree is yaml-cpp; anchors are not modelled |
| C113 | Asked to fly to one side, the vehicle leans to that side | partial | the demanded frame has the force as its third axis; in the frame of the vehicle the commanded rates are half the horizontal components of two of its axes, and the first output of an even loop is a positive multiple of the error; Proved for the force the vehicle needs (C113_sides: exactly the right sides when it faces as demanded, any tilt and any gains; C113_force: whatever way it faces, for a demanded tilt with cosine above (1 - 2 min(0, cos d))/3, d the heading error), and for the first call of the velocity and position modes after a reset, with equal horizontal gains and proportional limits (C113_velocity_partial, C113_position_partial: calls with an accumulated integral or a derivative term are missing). False for a vehicle facing exactly backwards and asked to go sideways: it does not lean (C113_backwards_refuted) |
| C114 | Rotors follow their command without overshoot in double precision | proved | the quotient (command - speed)/tau times dt is at most the distance to the command in real numbers by the 2^-50 margin; rounding is monotone and both ends are doubles, so the rounded sum stays between them; induction over sub-steps and calls; Proved, with a witness of a rotor that stops one unit in the last place short of its command |
| C115 | Where the vehicle is influences nothing but its position, to the last bit | proved | two-run relation carried through one step, then through splitting and the list of calls; Proved in every arithmetic, with a witness in double precision whose displacement changes |
| C116 | A larger error never gets a smaller command | proved | every stage (reset, accumulator, filter, sum, limit) is a monotone function of the error; rounding is monotone; Proved for both controllers and both ways of computing a command, in exact arithmetic and in double precision; C116_together and C116_minus_zero show that limiting the axes together and the two zeros must be excluded |
| C117 | Asked for more height, an upright vehicle never demands less thrust | proved | C116 axis by axis through the cascade, then the projection on the thrust axis; Proved for accelerations, velocities, positions, trajectories and the position reference of the simulator in exact arithmetic, and for accelerations, velocities, positions and trajectories in double precision; C117_upside_down shows that the attitude matters |
| C118 | Asked for more thrust, every rotor turns faster | proved | the inverse mixer maps a change of thrust to equal changes of the squares; rounding keeps the order; Proved for the two ready-made quadrotors with the exact shares, for every allocation with non-negative thrust shares in exact arithmetic and in double precision, and for the thrust reference of the simulator; C118_one_sided shows that the layout matters |
| C119 | Found to turn faster, the rotors push less that way | proved | the rate loop keeps the order (C116), the inverse mixer of an orthogonal layout gives each rotor a share of its own torque; Proved for the two ready-made quadrotors in exact arithmetic; for measured rates also with any number of rotors in terms of the shares of the allocation, in exact arithmetic (C119_rows, C119_simulators) and in double precision (C119_binary64). C119_rotor_slows shows why the request is stated for the torque and not rotor by rotor |

## 4. Trusted base

* Coq 8.16.1 kernel (and `vm_compute` for binary64 witnesses).
* Standard-library axioms reported by `Print Assumptions` (section 6).  Flocq is used as a library; none of its
  declarations is an axiom.
* The reading of C++ and Eigen in the model; each definition cites file and lines.  The code was not run.

## 5. What is modelled and what is not

Modelled function by function:

* `multirotor_dynamic_model/common/utils.hpp`, `state.hpp` (values and text output), `model.hpp` (parameters, checks, mixers,
  forces and torques, noise, the three ready-made rotor layouts), `dynamics.hpp` (all of it);
* `pid.hpp`, `pid_1d.hpp` (all of it; error getters in `MReport`);
* `acro_controller.hpp`, `indi_controller.hpp`, `position_controller.hpp`, `velocity_controller.hpp`, `trajectory_controller.hpp`,
  `multirotor_controllers.hpp`;
* `imu.hpp`, `inertial_odometry.hpp`, `multirotor_simulator.hpp`;
* the example programs: CSV logger, reference flights, scripted flights (with an arbitrary trajectory generator), configuration (`fly_example.cpp`, `traj_gen_example.cpp`).

Simplifications, each also stated at the definition:

* Build with `NDEBUG` (Eigen assertions and the debug checks of the headers are off).
* Sums and products inside one Eigen expression are evaluated left to right; no fused multiply-add; one scalar type.
  This matters only for the last bits in binary64; the rounding theorems (`C02_binary64`, `C42_binary64`) are about this order.
* Column lists instead of fixed-size matrices; a rotor-count mismatch is `UB` where C++ indexes out of range.
* The pose of a rotor is a rotation matrix and a translation (its projective row is fixed).
* Engine and distribution are arbitrary functions (`Gen`); `std::normal_distribution` is not modelled further.
* `libm` functions in binary64 are arbitrary functions (`Libm`), over the reals the mathematical ones.
* Getters that return references to sub-objects: whatever is done through them is modelled as calls of the
  sub-object (`CPid`, ...) or as its replacement by an arbitrary one (`SMutDyn`, ...).
* Arguments are values: a reference returned by a getter and passed back to the same object (aliasing) is not modelled.
* Reading a file: the example programs read the tree yaml-cpp makes of it (`MYaml`), with its exceptions and its
  aliasing assignment; anchors, merge keys and the text itself are not modelled, text to number is an arbitrary function.

Not modelled: build system, benchmark drivers, unit tests, YAML syntax, diagnostics on `cout`/`cerr`, number
formatting (abstract formatter that emits no separators), the trajectory generator library, of the plotting
script `--auto_update`, styling, windows and CSV files with quotation marks or characters outside printable ASCII,
`P = float`, heap exhaustion, concurrency (the library has none).

## 6. Assumptions per theorem

Output of `Print Assumptions`.  `-` means closed under the global context; `R` means exactly the four
standard-library axioms
`ClassicalDedekindReals.sig_not_dec`, `ClassicalDedekindReals.sig_forall_dec`,
`FunctionalExtensionality.functional_extensionality_dep`, `Classical_Prop.classic`,
which come with the standard real numbers (Flocq's binary64 uses them in its proofs).  No theorem uses anything else.

| Theorem | Assumptions |
|---|---|
| `C01_rotor_limits` | - |
| `C01_rotor_limits_history` | - |
| `C01_no_undefined_clamp` | - |
| `C01_simulator` | - |
| `C01_simulator_binary64` | R |
| `C02_unit_orientation` | R |
| `C02_unit_orientation_history` | R |
| `C02_binary64` | R |
| `C02_simulator` | R |
| `C03_rejected_without_effect` | - |
| `C03_throws_only_then` | - |
| `C04_refuted` | R |
| `C04_binary64_refuted` | R |
| `C04_substeps_partial` | R |
| `C04_overflow_undefined` | R |
| `C05_refuted` | R |
| `C05_gravity_over_mass` | R |
| `C06_newton` | R |
| `C06_noise_term_absent` | - |
| `C07_rigid_body` | R |
| `C07_attitude_kinematics` | R |
| `C07_rotor_acceleration` | R |
| `C08_refuted` | R |
| `C08_force_sample_in_torque_refuted` | R |
| `C08_parameter_ignored` | - |
| `C09_noise_free_reproducible` | - |
| `C09_zero_noise_is_no_noise` | R |
| `C10_rotor_lag` | R |
| `C10_rotor_limit` | R |
| `C11_rejected_unchanged` | - |
| `C11_accepted_forgets_old` | - |
| `C11_accepted_keeps_noise_state` | - |
| `C12_refuted` | R |
| `C12_inertia_refuted` | R |
| `C12_time_constant_refuted` | R |
| `C12_rotor_count_refuted` | R |
| `C12_nan_mass_refuted` | R |
| `C12_zero_mass_nan_refuted` | R |
| `C12_validation_partial` | R |
| `C12_meaningful_accepted` | R |
| `C13_rebuilt_mixer` | - |
| `C13_mixer_getter_refuted` | - |
| `C14_quad_x_pure_thrust` | R |
| `C14_quad_plus_pure_thrust` | R |
| `C14_hexa_pure_thrust` | R |
| `C14_quad_x_moments` | R |
| `C15_force_is_rotor_sum` | R |
| `C15_torque_is_rotor_sum` | R |
| `C15_thrust_is_rotor_sum` | R |
| `C15_four_row_mixer` | R |
| `C16_binary64` | R |
| `C16_binary64_grows` | R |
| `C16_drag_dissipates` | R |
| `C16_aerodynamic_moment_dissipates` | R |
| `C17_hover_fixed_point` | R |
| `C18_root_of_square_binary64` | R |
| `C18_square_of_root_binary64` | R |
| `C18_odd_binary64` | R |
| `C18_increasing_binary64` | R |
| `C18_rounding` | R |
| `C18_square_of_root` | R |
| `C18_root_of_square` | R |
| `C18_odd` | R |
| `C18_increasing` | R |
| `C19_translation_invariant` | R |
| `C20_per_axis` | - |
| `C20_scalar` | - |
| `C20_proportional` | R |
| `C20_proportional_binary64_refuted` | R |
| `C20_band_refuted` | R |
| `C21_one_factor` | R |
| `C21_refuted` | R |
| `C22_binary64` | R |
| `C22_bounded` | R |
| `C22_bounded_scalar` | R |
| `C22_negative_constant_refuted` | R |
| `C22_negative_constant_scalar_refuted` | R |
| `C22_scalar_defined` | R |
| `C23_reset_forgets` | - |
| `C23_reset_same_settings` | - |
| `C23_reset_forgets_scalar` | - |
| `C23_settings_keep_memory` | - |
| `C23_compute_keeps_settings` | - |
| `C24_binary64` | R |
| `C24_no_kick` | R |
| `C25_refuted` | R |
| `C25_flag_without_effect` | R |
| `C25_without_windup` | R |
| `C26_refuted` | R |
| `C26_scalar_refuted` | R |
| `C26_round_trip` | R |
| `C26_round_trip_scalar` | R |
| `C27_refuted` | R |
| `C27_scalar` | - |
| `C27_validated` | R |
| `C27_first_axis` | R |
| `C28_refuted` | R |
| `C28_nan_until_reset` | R |
| `C28_nan_until_reset_scalar` | R |
| `C28_infinite_later_refuted` | R |
| `C29_textbook` | R |
| `C29_textbook_given_derivative` | R |
| `C30_axes_are_scalar` | R |
| `C30_mixed_windup_refuted` | R |
| `C30_contamination_refuted` | R |
| `C31_not_negative` | - |
| `C31_not_negative_binary64` | R |
| `C31_value` | R |
| `C32_frame` | R |
| `C32_no_force` | R |
| `C32_parallel` | R |
| `C33_aligned` | R |
| `C33_yaw_error` | R |
| `C33_short_way` | R |
| `C33_descent` | R |
| `C33_only_when_aligned_refuted` | R |
| `C34_x` | R |
| `C34_plus` | R |
| `C34_vehicle` | R |
| `C35_hover_command` | R |
| `C35_hover_x` | R |
| `C35_hover_plus` | R |
| `C35_after_reset` | R |
| `C36_no_gain` | - |
| `C36_response` | R |
| `C37_limits_refuted` | R |
| `C37_feedback` | R |
| `C38_thrust_refuted` | R |
| `C38_always_zero` | - |
| `C39_noise_free` | R |
| `C40_bias_walk` | R |
| `C40_reading` | R |
| `C40_initial_bias` | R |
| `C40_settings` | - |
| `C40_no_time_no_change` | - |
| `C41_refuted` | R |
| `C41_always_undefined` | - |
| `C41_other_getters` | - |
| `C42_unit_orientation` | R |
| `C42_rates_average` | R |
| `C42_rates_in_range` | R |
| `C42_acceleration_average` | R |
| `C42_integration` | R |
| `C42_binary64` | R |
| `C43_refuted` | R |
| `C43_reading` | R |
| `C43_round_trip` | R |
| `C44_above_floor` | - |
| `C44_binary64` | R |
| `C45_contact` | - |
| `C45_reaction` | - |
| `C46_from_construction` | - |
| `C46_after_disarm` | - |
| `C46_rotors_stop` | R |
| `C46_stop_refuted` | R |
| `C47_same_mode` | - |
| `C47_new_mode` | - |
| `C47_mode_is_last_asked` | - |
| `C47_memory_refuted` | R |
| `C48_twins_stay_twins` | - |
| `C48_entering` | - |
| `C49_controller` | - |
| `C49_imu` | - |
| `C49_odometry` | - |
| `C49_dynamics` | - |
| `C50_above` | - |
| `C50_below` | - |
| `C50_refuted` | R |
| `C51_rebuilds` | R |
| `C51_ranges` | R |
| `C51_scale` | R |
| `C51_unique` | R |
| `C51_vertical` | R |
| `C51_vertical_lost` | R |
| `C52_state_text` | - |
| `C52_odometry_text` | - |
| `C52_print_state_refuted` | R |
| `C52_print_state_law` | - |
| `C53_step_defined` | R |
| `C53_simulator` | R |
| `C53_simulator_binary64` | R |
| `C54_rate` | R |
| `C54_realised_refuted` | R |
| `C54_simulator` | R |
| `C55_acro` | - |
| `C55_acceleration` | - |
| `C55_velocity` | - |
| `C55_position` | - |
| `C55_trajectory` | - |
| `C55_reachable_pids` | - |
| `C56_reseed` | - |
| `C57_refuted` | R |
| `C57_mass_times_acceleration` | R |
| `C58_refuted` | R |
| `C58_rates_as_mounted` | R |
| `C59_stays_landed` | R |
| `C60_holds_weight_partial` | R |
| `C60_drift` | R |
| `C60_refuted` | R |
| `C61_whole_flight` | - |
| `C61_stale_motors` | - |
| `C61_followed_references` | - |
| `C61_motor_mode` | - |
| `C62_log_file` | - |
| `C62_row_complete` | - |
| `C62_nan_refuted` | R |
| `C63_overrun` | - |
| `C63_in_range` | - |
| `C63_sound` | R |
| `C63_lands` | R |
| `C63_binary64_refuted` | R |
| `C63_binary64_overrun` | R |
| `C63_empty_list` | - |
| `C63_calls` | - |
| `C63_in_force` | - |
| `C64_matched` | - |
| `C64_started` | - |
| `C64_delivered` | R |
| `C64_defined` | R |
| `C64_builtin_binary64` | R |
| `C64_tours` | R |
| `C65_vector` | - |
| `C65_scalar` | - |
| `C66_kept` | - |
| `C66_yaw_kept` | - |
| `C66_arm` | - |
| `C67_routed` | - |
| `C68_parts` | - |
| `C68_only` | - |
| `C69_as_written` | - |
| `C69_unread` | - |
| `C69_trajectory_filter` | - |
| `C70_heading_without_drag` | R |
| `C70_quarter_turn` | R |
| `C70_heading_refuted` | R |
| `C71_constant_force` | R |
| `C71_ballistic` | R |
| `C72_spin` | R |
| `C72_spin_lag` | R |
| `C72_spin_refuted` | R |
| `C73_drag_slows` | R |
| `C73_runs_away` | R |
| `C73_drag_slows_refuted` | R |
| `C74_terminal_speed` | R |
| `C74_terminal_limit` | R |
| `C75_x_documented` | R |
| `C75_plus_documented` | R |
| `C75_hexagon` | R |
| `C75_plus_square` | R |
| `C75_hexa_documented_refuted` | R |
| `C76_x_every_wrench` | R |
| `C76_plus_every_wrench` | R |
| `C76_hexa_every_wrench` | R |
| `C77_noise_law` | R |
| `C77_draws` | R |
| `C77_random_walk` | R |
| `C78_sound` | - |
| `C78_ends` | - |
| `C78_rows` | - |
| `C78_lands` | R |
| `C78_lands_binary64` | R |
| `C78_endless_binary64` | R |
| `C78_lands_refuted` | R |
| `C78_arm_calls` | - |
| `C78_motor_calls` | - |
| `C78_pitch_calls` | - |
| `C78_trajectory_calls` | - |
| `C78_takeoff_calls` | - |
| `C78_full_speed` | - |
| `C78_pitch` | R |
| `C78_trajectory` | - |
| `C79_step` | R |
| `C79_run` | R |
| `C79_bound_needed` | R |
| `C80_reset_forgets` | - |
| `C80_like_new` | - |
| `C81_modes_by_hand` | - |
| `C82_retune` | - |
| `C82_same_story` | - |
| `C82_same_story_scalar` | - |
| `C82_retune_loop` | - |
| `C83_steer_x` | R |
| `C83_steer_plus` | R |
| `C84_vertical` | R |
| `C85_error` | - |
| `C85_kept` | - |
| `C85_parts` | R |
| `C85_derivative` | - |
| `C85_derivative_refuted` | R |
| `C85_scalar` | - |
| `C85_scalar_parts` | - |
| `C85_scalar_kept` | - |
| `C85_loops` | - |
| `C85_loops_kept` | - |
| `C85_trajectory_velocity` | - |
| `C85_outputs` | - |
| `C85_allocation` | R |
| `C86_attitude` | R |
| `C86_rates` | R |
| `C86_reported` | R |
| `C86_attitude_refuted` | R |
| `C86_motion` | R |
| `C87_from_any_state` | R |
| `C87_from_start` | R |
| `C87_sideways` | R |
| `C87_upwards_refuted` | R |
| `C88_sensors` | - |
| `C88_sensors_midway` | - |
| `C88_disarmed` | - |
| `C89_numbering` | R |
| `C89_allocation` | R |
| `C90_brought_in` | - |
| `C90_wrong_order` | - |
| `C90_defined_binary64` | R |
| `C90_float_limits` | R |
| `C90_double_limits_partial` | R |
| `C90_double_limits_refuted` | R |
| `C90_out_of_range_refuted` | R |
| `C91_loop` | R |
| `C91_scalar_loop` | R |
| `C91_controller` | R |
| `C91_vehicle_refuted` | R |
| `C92_mirrored` | R |
| `C92_same_vehicle` | R |
| `C92_reset_refuted` | R |
| `C93_turned` | R |
| `C94_scaled` | R |
| `C94_allocation` | R |
| `C94_acro_refuted` | R |
| `C94_floor_refuted` | R |
| `C95_climb` | R |
| `C95_reached` | R |
| `C95_drag_refuted` | R |
| `C95_descent` | R |
| `C95_descent_reached` | R |
| `C96_total` | R |
| `C96_between` | R |
| `C96_mean` | R |
| `C96_settles` | R |
| `C96_gain_only_refuted` | R |
| `C96_bounded` | R |
| `C96_settles_bounded` | R |
| `C96_settles_inside` | R |
| `C96_bound_refuted` | R |
| `C97_attitude` | R |
| `C97_place` | R |
| `C97_sharp` | R |
| `C97_flight` | R |
| `C98_work` | R |
| `C98_fall_partial` | R |
| `C98_tumbling` | R |
| `C98_energy_partial` | R |
| `C98_momentum_partial` | R |
| `C98_kept_refuted` | R |
| `C99_flight` | R |
| `C99_reached` | R |
| `C99_gains_matter` | R |
| `C99_descent` | R |
| `C99_descent_reached` | R |
| `C100_converges` | R |
| `C100_simulator` | R |
| `C101_run` | R |
| `C102_vector` | R |
| `C102_scalar` | R |
| `C102_band_refuted` | R |
| `C103_imu` | R |
| `C103_odometry` | R |
| `C104_run` | R |
| `C104_direction` | R |
| `C105_history` | R |
| `C105_tiny_yaw_gain_refuted` | R |
| `C106_position` | R |
| `C106_velocity` | R |
| `C106_rates` | R |
| `C106_odometry` | R |
| `C106_exact_refuted` | R |
| `C107_columns` | - |
| `C107_empty` | - |
| `C107_mixed` | - |
| `C107_nan_refuted` | R |
| `C108_figures` | - |
| `C108_error` | R |
| `C108_yaw_turn_refuted` | R |
| `C109_view` | R |
| `C109_below_refuted` | R |
| `C109_reference_refuted` | R |
| `C110_rate` | R |
| `C110_reached` | R |
| `C110_thick_air_refuted` | R |
| `C111_documented_partial` | R |
| `C111_agrees_partial` | R |
| `C111_force` | R |
| `C111_gravity_refuted` | R |
| `C111_drag_refuted` | R |
| `C111_aero_refuted` | R |
| `C111_components` | R |
| `C111_pitch_refuted` | R |
| `C111_attitude_refuted` | R |
| `C112_shipped_binary64` | R |
| `C112_shipped_velocity_refuted` | R |
| `C112_velocity` | - |
| `C112_turning` | - |
| `C112_trajectory` | - |
| `C112_incomplete` | - |
| `C112_incomplete_trajectory` | - |
| `C112_absent` | - |
| `C112_garbled` | - |
| `C112_bad_triple` | - |
| `C112_empty` | - |
| `C112_empty_refuted` | - |
| `C112_valueless_refuted` | R |
| `C112_shipped` | - |
| `C112_shipped_lands` | R |
| `C113_sides` | R |
| `C113_force` | R |
| `C113_velocity_partial` | R |
| `C113_position_partial` | R |
| `C113_backwards_refuted` | R |
| `C114_towards` | R |
| `C114_stalls` | - |
| `C114_stops_short` | R |
| `C115_place_independent` | - |
| `C115_stands_still` | R |
| `C116_vector` | R |
| `C116_vector_rate` | R |
| `C116_together` | R |
| `C116_scalar` | R |
| `C116_scalar_rate` | R |
| `C116_binary64` | R |
| `C116_binary64_rate` | R |
| `C116_binary64_scalar` | R |
| `C116_minus_zero` | R |
| `C116_binary64_scalar_rate` | R |
| `C117_acceleration` | R |
| `C117_velocity` | R |
| `C117_position` | R |
| `C117_trajectory` | R |
| `C117_simulator` | R |
| `C117_upside_down` | R |
| `C117_binary64_acceleration` | R |
| `C117_binary64_velocity` | R |
| `C117_binary64_position` | R |
| `C117_binary64_trajectory` | R |
| `C118_x` | R |
| `C118_plus` | R |
| `C118_simulator` | R |
| `C118_rows` | R |
| `C118_binary64` | R |
| `C118_one_sided` | R |
| `C119_requested` | R |
| `C119_simulator` | R |
| `C119_rotor_slows` | R |
| `C119_binary64` | R |
| `C119_rows` | R |
| `C119_simulators` | R |

## 7. Findings: where code and expected behaviour disagree

Each was found by a proof that would not close or by reading for the model; the theorem is the witness.

| # | Finding | Witness |
|---|---|---|
| 1 | Torque noise uses the force sample; the moment noise parameter never influences the motion (`dynamics.hpp`) | `C08_refuted`, `C08_parameter_ignored` |
| 2 | Gravity is not multiplied by the mass: a falling body accelerates by g/m.  The floor reaction uses m g and the controller's hover thrust is m g, so a matched vehicle drifts unless its mass is 1 | `C05_refuted`, `C05_gravity_over_mass`, `C60_refuted`, `C60_drift` |
| 3 | `ceil(dt/0.01)` sub-steps of 0.01 s overshoot: 0.015 s simulates 0.02 s; in binary64 0.07 s simulates 0.08 s; a huge `dt` overflows the loop counter; NaN passes the guards | `C04_refuted`, `C04_binary64_refuted`, `C04_overflow_undefined` |
| 4 | The parameter check accepts zero mass, zero time constants, inertia that is not positive definite, NaN, too short motor lists; the default simulator computes NaN | `C12_*_refuted` |
| 5 | The mixer getter returns a member that is never written; parameters refused at construction leave every parameter indeterminate | `C13_mixer_getter_refuted`, C11 |
| 6 | The IMU is fed with the rotation in the wrong direction and with a force instead of a specific force; the odometry's "acceleration" is mass times acceleration | `C43_refuted`, `C57_refuted` |
| 7 | Touching the floor resets the odometry position to zero and redraws the IMU biases | C45 |
| 8 | `IMU::get_measurement` returns references to destroyed temporaries | `C41_refuted` |
| 9 | The reset-integral flag has no effect while anti-windup is on; a zero anti-windup on one axis freezes that integral; a negative constant flips the sign of the integral (vector) or is undefined (scalar) | `C25_refuted`, `C30_mixed_windup_refuted`, `C22_negative_constant*_refuted` |
| 10 | Proportional saturation multiplies by a factor outside [0,1] when the range excludes zero, and can exceed the limit by one rounding error | `C21_refuted`, `C20_band_refuted`, `C20_proportional_binary64_refuted` |
| 11 | A refused saturation range is half written; writing back the parameters read re-enables a disabled saturation | `C27_refuted`, `C26_refuted` |
| 12 | A zero time step poisons the PID with NaN until the next reset | `C28_refuted`, `C28_nan_until_reset` |
| 13 | Trajectory feed-forward is added after the saturation | `C37_limits_refuted` |
| 14 | The acro thrust getter always returns zero (shadowed member) | `C38_thrust_refuted`, `C38_always_zero` |
| 15 | The allocation is exact, but the gyroscopic term uses the desired angular velocity | C34 |
| 16 | Disarmed rotors are commanded to zero, which the dynamics raises to the minimum speed | `C46_stop_refuted` |
| 17 | A throwing update below the floor leaves the external force set | `C50_refuted` |
| 18 | Changing the mode keeps PID integrals, the yaw rate and motor references | `C47_memory_refuted` |
| 19 | The CSV logger constructs an exception without throwing it and drops the column when a value is NaN | `C62_nan_refuted` |
| 20 | `print_state` misses three separators | `C52_print_state_refuted` |
| 21 | Gains are full matrices: an infinite error on one axis makes all axes NaN | `C30_contamination_refuted` |
| 22 | Facing exactly backwards commands zero rates | `C33_only_when_aligned_refuted` |
| 23 | Yaw-rate mode turns at K sin(rate/K), not at the requested rate | `C54_realised_refuted` |
| 24 | The parameter constructor of the INDI controller is fixed to four rotors | C34 (model note) |
| 25 | The IMU mounting quaternion is inverted without normalisation; the initial bias is drawn with the noise variance; reseeding keeps the distribution's cached value | C39, C40, C56 |
| 26 | The odometry ignores the mounting orientation | `C58_refuted` |
| 27 | `arm()` sets the thrust reference to 9.81 whatever mass and gravity are | `C66_arm` |
| 28 | At a pitch of 90 degrees roll and yaw are both reported as zero | C51 |
| 29 | The example flights switch references by an accumulated clock: in binary64 the index can run past the list (undefined).  Witness: 1.1 s, 5 ms, two references.  The shipped `simulation_config.yaml` (60 s, 1 ms, 8 velocity references) overruns at iteration 60000; its 9 position references do not | `C63_binary64_refuted`, `C63_overrun`, `C112_shipped_velocity_refuted`, `C112_shipped_binary64` |
| 30 | The first log row is written twice | C63 |
| 31 | `fly_example` does not read the trajectory gains, `traj_gen_example` not the velocity and position gains | `C69_unread` |
| 32 | `docs/CommonConfigurations.md`: the hexarotor matrix is not the one of the code, and equal speeds would give it a roll torque (X and + agree) | `C75_hexa_documented_refuted` |
| 33 | `docs/Dynamics.md`: drag is written in body axes, the code squares world components; the aerodynamic torque is written as a cross product, the code multiplies -\|w\| C w; gravity is written as m g | `C111_drag_refuted`, `C111_aero_refuted`, `C111_gravity_refuted`, `C111_documented_partial` |
| 34 | A limit with a zero on one axis switches saturation off on all axes | `C65_vector`, `C69_as_written` |
| 35 | Drag squares each world component separately, so it depends on the heading: the same vehicle is braked differently flying north-east than flying north | `C70_heading_refuted`, `C70_quarter_turn` |
| 36 | Explicit Euler steps: a spinning vehicle turns by 2 atan(w dt/2) per step instead of w dt; positions lag the parabola by a t dt/2 | `C72_spin_refuted`, `C72_spin_lag`, `C71_ballistic` |
| 37 | Drag turns the vehicle round and accelerates it without bound when drag * speed * dt exceeds twice the mass | `C73_drag_slows_refuted`, `C73_runs_away` |
| 38 | The example flights accumulate `t += dt`: in binary64 a step below half an ulp of some time before the end stops the clock and the program never ends | `C78_lands_refuted`, `C78_endless_binary64` |
| 39 | The take-off flight keeps the heading while climbing and then asks for heading 0 (and not the current one) on the trajectory | `C78_takeoff_calls` |
| 40 | Zero drag times the overflowed square of a huge finite velocity is NaN, so finite numbers alone are not preserved by a step | `C79_bound_needed` |
| 41 | `get_derivative_error` is not written by the two-argument `compute_control`, so it reports an old derivative error while the derivative contribution is new; `get_motor_angular_velocity` of the INDI controller is documented as the square of the velocity but is the signed root | `C85_derivative_refuted`, `C85_derivative`, `C85_outputs` |
| 42 | Updated once per vehicle update, the odometry is one step ahead in attitude (the vehicle turns by its old rate, the odometry by the new one) and its velocity is a momentum | `C86_attitude_refuted`, `C86_attitude`, `C86_motion` |
| 43 | Arming requests the height of a floor that was never enabled (0), wherever the vehicle is | `C87_upwards_refuted` |
| 44 | `clamp_vector` takes its limits as `const float`: clamping doubles to 0.1 leaves components above 0.1, and limits beyond the range of float are undefined | `C90_double_limits_refuted`, `C90_out_of_range_refuted` |
| 45 | Default parameters pass `check_params` but have zero mass, inertia and motor time constants: the first update of a default-constructed simulator makes rotor speeds and body rates not-a-number | `C91_vehicle_refuted` |
| 46 | The integral reset on a change of sign takes a zero error for a positive one: after errors 1, 0 the integral stays, after -1, 0 it is dropped | `C92_reset_refuted` |
| 47 | `arm` requests a thrust of 9.81 N in ACRO whatever the mass | `C94_acro_refuted` |
| 48 | The floor pushes with the gravity term times the mass although the gravity term already is a force; a vehicle of mass 2 is pushed up by its weight once more | `C94_floor_refuted` |
| 49 | The acceleration controller compensates gravity but not drag: a proportional velocity loop does not hold the requested climb speed | `C95_drag_refuted` |
| 50 | The integrals run on over mode switches: what a loop has summed up in an earlier flight in that mode acts again when the mode is entered again | `C96_total` (with C47, C80) |
| 51 | A vehicle left alone gains energy: falling, by m a^2 dt^2 / 2 in each step; tumbling, by dt^2 times the energy of its angular acceleration | `C98_kept_refuted`, `C98_fall_partial`, `C98_energy_partial` |
| 52 | On doubles the signed square of the signed root is not always the number (2 is not given back), and magnitudes of 2^512 and more, or 2^-538 and less, do not survive squaring | `C18_rounding` |
| 53 | Saturation limits that exclude zero are accepted; with proportional saturation a zero error then gives -1/0 times 0, which is NaN | `C102_band_refuted` |
| 54 | A positive but tiny yaw gain makes the yaw reference of the yaw-rate modes infinite: the requested rate is divided by the gain | `C105_tiny_yaw_gain_refuted` |
| 55 | Far from the origin a slow vehicle does not move: the distance of one step is below half the spacing of the doubles at that place and is rounded away, in every step | `C106_exact_refuted` |
| 56 | A reference that is NaN in every row shifts the columns: the plotting script reads later quantities under the wrong names (yaw reference as y reference) and prints only a warning about the number of keys | `C107_nan_refuted` |
| 57 | A log with NaN references in some rows only makes the plotting script end with a TypeError: only one of its four figure functions checks that reading returned anything | `C107_mixed` |
| 58 | The mean error printed for yaw is the difference of two numbers, not of two angles: facing exactly the commanded way gives an error of a whole turn | `C108_yaw_turn_refuted` |
| 59 | The picture in space starts at height zero: a vehicle below it is not shown; its range is taken from the vehicle alone, so that the reference may be outside | `C109_below_refuted`, `C109_reference_refuted` |
| 60 | The rate loop knows nothing of the air: where the air resists turning, a proportional rate loop keeps a standing error (asked for 3/2, the vehicle turns at 1 forever) | `C110_thick_air_refuted` |
| 61 | `docs/Dynamics.md` gives the pitch torque of aligned rotors as + x kf w^2 (code and the general formula of the same page: - x kf w^2); `docs/Kinematics.md` writes the quaternion derivative once as w q / 2 and once as q w / 2, the code uses the latter | `C111_pitch_refuted`, `C111_components`, `C111_attitude_refuted` |
| 62 | example programs: a list of references (`position_references:`) that is present but empty, or has no value, is not replaced by the default; `references[0]` of an empty vector is undefined behaviour. `sim_time:` or `dt:` without a value is an exception, an absent entry the default. `yml = yaml_config_file[...]` overwrites the document that is read (harmless: no overwritten place is read again) | `C112_empty`, `C112_empty_refuted`, `C112_valueless_refuted` |
| 63 | anti-windup bounds that are too small for the load leave a standing error for ever, although the loop has an integral gain | `C96_bound_refuted` |
| 64 | attitude law: a level vehicle that faces exactly opposite to the demanded heading and is asked to accelerate sideways gets zero roll and pitch rates (and zero yaw rate, finding of C33), whatever the acceleration | `C113_backwards_refuted` |
| 65 | in double precision a rotor can stop short of its command for ever (the step rounds to nothing); in exact arithmetic it converges | `C114_stops_short` |
| 66 | in double precision the path depends on where the vehicle is: at a height of 2^53 m it stands still while its velocity is 1 m/s | `C115_stands_still` |
| 67 | with proportional saturation a larger error on an axis can get a smaller command on that axis, because another axis takes the room | `C116_together` |
| 68 | with the integral reset on, the errors +0 and -0 get different commands, because the reset looks at the sign bit | `C116_minus_zero` |
| 69 | upside down, a vehicle asked to fall less fast demands less thrust | `C117_upside_down` |
| 70 | with all rotors on one side of the centre of mass, asking for more thrust slows one of them down although every thrust and torque can be produced | `C118_one_sided` |
| 71 | asked to roll faster while it turns about the vertical, a vehicle with unequal moments of inertia slows down a rotor that rolls it that way: the gyroscopic torque uses the requested rates | `C119_rotor_slows` |

## 8. Mutation testing

`seeded/LOG.jsonl` lists the attempts: a realistic bug is put into a model definition in a copy outside this
tree, everything depending on it is rebuilt, lemmas that no longer prove are replaced by an axiom, and the property theorems that
then depend on the axiom are recorded.  A theorem that should have failed and did not is tightened.
