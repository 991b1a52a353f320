# Formal model of viaems in Rocq

Target: `/repo` (via/viaems), C firmware.  Model: `/verif/rocq/theories`.
Properties: `properties.jsonl` (C01…).  Status per property: `MANIFEST.json`.

## 1. How the code is modelled

* Each C function is a total Gallina function over explicit state records; every
  definition carries a comment with the file and lines it models.
* **Integers.** `timeval_t`/`uint32_t` are `Z` values reduced `mod 2^32` at every
  operation that can wrap (`Word.v`).
* **Floats.** C `float` is modelled bit-exactly as IEEE binary32 using
  `Coq.Floats.SpecFloat` with precision 24 / emax 128 and round-to-nearest-even
  (`F32.v`).  The model itself needs no axioms.  Proofs about rounding go through
  Flocq (`F32Flocq.v`), which uses the axioms of the standard library's reals.
  The code is compiled with `-std=c11` (no FMA contraction) and
  `FLT_EVAL_METHOD == 0` on the targets; both are assumptions of the model.
* **Undefined behaviour is an outcome.** Fallible code returns
  `res A := Ok a | Err e` with `e` one of: out-of-bounds access, division by zero,
  out-of-range float→int conversion, oversized shift, null dereference, failed
  `assert`, non-terminating loop.  Nothing is assumed away.  `assert` is controlled by a
  build flag (`ndebug`): the embedded targets build with `-DNDEBUG`.
* **Interrupts.** Critical sections of the C code are atomic model steps.
  Properties that matter under pre-emption are proved over arbitrary interleavings
  of those steps (the operation list is universally quantified).
* **External code.** `cosf`/`logf` (libm) and the tinycbor parser are parameters
  (arguments of the model functions, universally quantified in the theorems): theorems hold
  for every behaviour of them.

## 2. Files

In build order.  `*Spec.v` are specifications, independent of the model's helpers; `*Proofs.v` are proofs; `P_*.v` hold the property theorems, satisfiability examples and `Print Assumptions`.

| file | content |
|---|---|
| `Res.v` | Outcomes of C code. Undefined behaviour, failed assertions and loops that never terminate are distinct outcomes; no C operation is assumed to be safe. |
| `Word.v` | 32-bit unsigned arithmetic and the time comparisons of util.c. |
| `F32.v` | C `float` as IEEE-754 binary32 (bit exact, round to nearest even), built on the standard library's axiom-free `SpecFloat`; float helpers of util.c. |
| `F32Flocq.v` | Bridge from the executable binary32 model to Flocq's proved arithmetic. |
| `TimeProofs.v` | Proofs about util.c: time comparison, unit conversion, angle normalisation. |
| `P_Time.v` | Properties C01-C03: util.c. |
| `Table.v` | src/table.c and src/table.h: lookup tables. |
| `TableSpec.v` | Vocabulary for the table properties, independent of how lookups are computed. |
| `TableProofs.v` | Proofs about table lookups. |
| `P_Table.v` | Properties C04-C07: lookup tables (src/table.c). |
| `Arr.v` | Lemmas about checked array access. |
| `Callbacks.v` | src/scheduler.c: the timer callback list, and the hardware event timer. |
| `CallbackSpec.v` | What a timer-callback facility should do, without arrays or modular time. Callbacks are numbers, deadlines are unbounded instants. |
| `CallbackRun.v` | Executions of the callback facility: any history of scheduling requests and timer interrupts, started from the initial state. |
| `CallbackProofs.v` | Proofs about the callback facility. |
| `P_Callbacks.v` | Properties C08-C11 and C55: the timer callback facility (src/scheduler.c 266-335). |
| `Outputs.v` | Output events: src/scheduler.h 8-55 and src/scheduler.c 15-238. |
| `Buffers.v` | The double-buffered DMA outputs of the microcontroller platforms: src/platforms/common/stm32_sched_buffers.{c,h}. |
| `OutputSpec.v` | What an output pulse scheduler should do, with unbounded time and no hardware. Time is divided in blocks of 128 ticks; the hardware plays one block while the next one is already final. `n` is the block being played. |
| `OutputRun.v` | Executions: any interleaving of scheduler critical sections with buffer swaps. |
| `OutputProofs.v` | Proofs about single scheduler operations. |
| `BufferProofs.v` | Proofs about the DMA buffers. |
| `RunProofs.v` | Invariants over executions of scheduler and buffers. |
| `P_Outputs.v` | Properties C12-C21: output events and the DMA double buffer. |
| `AngleProofs.v` | Accuracy of the conversions between crank angle and time (src/util.c). |
| `PulseProofs.v` | From a requested crank angle to the waveform on a pin. |
| `Wave.v` | What the output pins do: the DMA engine writes one slot per tick (4 MHz) of the buffer being played to the GPIO set/reset register. |
| `WaveProofs.v` | Proofs about the waveform on the pins. |
| `P_Pulses.v` | Properties C18-C21 and C56-C58: from a commanded angle to the waveform on the pin. |
| `P_Delay.v` | C60: a pending pulse is never pushed back by more than half a turn. |
| `RelErr.v` | A small calculus of relative errors, and the accuracy of the RPM computation. |
| `Decoder.v` | src/decoder.c: trigger decoding. src/decoder.h. |
| `DecoderProofs.v` | Basic facts about the decoder model. |
| `DecoderSafe.v` | The decoder's bookkeeping stays in range; the only undefined behaviour left with a supported configuration is an out-of-range float conversion. |
| `DecoderRun.v` | Histories of the decoder, and what they imply for its state. |
| `DecoderMissing.v` | The missing-tooth decoder: one tooth in the synchronised state. |
| `DecoderAngle.v` | The decoder's reference angle stays in one engine cycle; the estimate of the current angle. |
| `DecoderLoss.v` | What makes a synchronised decoder lose synchronisation. |
| `P_Decoder.v` | Properties of the trigger decoder: C23, C24, C27-C30, C59. |
| `Wheel.v` | A turning missing-tooth wheel, and when its speed is steady: the specification for C25. |
| `WheelProofs.v` | A missing-tooth wheel at steady speed: the decoder syncs at the first gap and keeps counting. |
| `WheelRun.v` | The missing-tooth decoder on a steadily turning wheel, tooth by tooth. |
| `WheelAngle.v` | The reference angle over many teeth. |
| `P_Wheel.v` | C25: a missing-tooth decoder on a turning wheel. |
| `DecoderEven.v` | The speed test of the even-tooth decoders. |
| `EvenProofs.v` | One tooth of the even-tooth decoders. |
| `EvenSpec.v` | A turning wheel with equally spaced teeth and a cam pulse every `num` teeth: the specification for C26. Teeth are numbered on and on while the wheel turns; `f m` is the tick at which tooth `m` passes the sensor. |
| `EvenRun.v` | The even-tooth decoder with cam sync on a steadily turning wheel, tooth by tooth. |
| `P_Even.v` | C26: an even-tooth decoder with cam sync on a turning wheel. C61: the speed tolerance. |
| `Interval.v` | Interval reasoning for binary32 computations: bounds that are binary32 numbers themselves survive rounding. Table lookups with bounded cells are bounded. |
| `Calc.v` | src/calculations.c: ignition, fuelling and cut calculations. |
| `CalcSpec.v` | Specification vocabulary for C31, C33 and C34. |
| `CalcProofs.v` | Proofs about calculations.c. |
| `FuelProofs.v` | Range analysis of the fuelling computation (C34). |
| `DefaultConfig.v` | The default configuration compiled into the firmware, src/config.c 4-302 (tables, fuelling, ignition, limits, outputs and decoder). Decimal literals are rounded once to binary32. |
| `P_Calc.v` | Properties C31, C33 and C34: rev limiter, tip-in enrichment and fuelling (src/calculations.c). |
| `System.v` | The whole firmware: what one trigger does from capture to scheduled outputs (src/decoder.c 411-434, src/scheduler.c 239-264), the timer interrupt with the callbacks of this firmware (src/scheduler.c 322-335), the built-in trigger simulator (src/sim.c), and every other thing that can happen between them. |
| `SystemProofs.v` | Lemmas about the whole-firmware model. |
| `CallbackSafe.v` | The callback table stays well formed whatever the deadlines are (no window on them). |
| `SystemRun.v` | Executions of the whole firmware and their invariant. |
| `P_System.v` | Properties C11, C29, C32 and C54 of whole-firmware executions (System.v). |
| `SystemOutputs.v` | The firmware of System.v drives the outputs only by the atomic steps of OutputRun.v. |
| `P_SystemOutputs.v` | Properties C68 and C69: the outputs under the whole firmware. |
| `FinBack.v` | A finite result comes from finite operands and is correctly rounded; absolute rounding error. |
| `Sensors.v` | src/sensors.c: conversion, filtering and fault handling of the sensor inputs, and the knock filter. |
| `SensorSpec.v` | Specification of the windowed average (C38). |
| `SensorProofs.v` | Proofs about sensors.c. |
| `KnockSpec.v` | Specification of the knock filter (C62): the second-order recurrence over one block, for any arithmetic, and the power of one frequency in a block of real samples. |
| `KnockProofs.v` | Proofs about the knock filter. |
| `P_Sensors.v` | Properties C35-C38, C62 and C63: sensors and knock. |
| `ThermProofs.v` | Proofs about the thermistor conversion and the derivative of a sensor. |
| `P_SensorInputs.v` | Properties C65-C67: which input a sensor takes, its derivative, and thermistors. |
| `Tasks.v` | src/tasks.c: the periodic tasks and the emergency shutdown, and the PWM outputs they drive. Every call of current_time() is a separate reading, passed in (the counter goes on while a task runs). |
| `TaskSpec.v` | Specification of the tasks in true time: ticks (4000000 a second) since power-on, never wrapping. |
| `TaskProofs.v` | Proofs about the tasks. |
| `P_Tasks.v` | Properties C39-C42: the periodic tasks and the emergency shutdown. |
| `P_AllTasks.v` | C86: the periodic tasks together drive the pump, the boost valve and the check engine light, and nothing else. |
| `EventLog.v` | The event log of the console: a 32-entry ring written by interrupt handlers and read by the main loop. |
| `EventLogSpec.v` | What the host may rely on, stated over what was recorded and received only. |
| `EventLogProofs.v` | The ring refines a bounded queue of numbered events. |
| `P_EventLog.v` | C43: the event log is a loss-aware FIFO. |
| `Cbor.v` | CBOR items as the console sees them through the tinycbor library, which is not part of the repository: the query functions below follow its documented behaviour (cbor.h); strings are modelled as single chunks. |
| `Console.v` | src/console.c: the settings tree, requests and responses. |
| `ConsoleSpec.v` | What the console's paths mean, independently of how console.c walks them. |
| `ConsoleProofs.v` | Compositional properties of the renderers. |
| `ConsoleSafe.v` | Memory safety of the renderers, and what a SET may change. |
| `ConsoleDefined.v` | Which requests are carried out: all that do not write a knock frequency (C64). |
| `ConsoleNav.v` | Following a path to a single setting. |
| `ConsoleLeaf.v` | Requests about a single setting. |
| `ConsoleShape.v` | The shape of what the renderers write. |
| `P_Console.v` | Properties of the console: C45-C49, C64. |
| `Framing.v` | Request framing of the console: the receive buffer of src/console.c, from the bytes a platform's console_read delivers to the requests that are processed. |
| `CborGrammar.v` | When a byte string is one well-formed CBOR data item (RFC 8949, section 3 and appendix C), as a machine that reads one byte at a time, and the instance of `Framing.parser` it gives. |
| `FramingSpec.v` | What the properties of request framing say, in terms of the bytes received, the requests processed and the clock. |
| `FramingProofs.v` | Proofs about request framing. |
| `CborProofs.v` | The byte-at-a-time CBOR reader meets the contract of FramingSpec. |
| `CborSpec.v` | The grammar of well-formed CBOR data items, RFC 8949 section 3 and appendix C, as an inductive definition. |
| `CborRfc.v` | The byte-at-a-time reader of CborGrammar accepts exactly the grammar of CborSpec. |
| `P_Framing.v` | C44: requests are framed safely, delivered in order and cannot wedge the console. C70: the gd32f4 USB receive path. C71: messages are sent whole. |
| `Hosted.v` | The outputs of the hosted (simulator) platform: src/platforms/hosted.c 217-330. |
| `HostedSpec.v` | What the simulator's outputs should do. |
| `HostedProofs.v` | Proofs about the simulator's outputs. |
| `P_Hosted.v` | C22: the simulator's output windows. |
| `Captures.v` | The trigger inputs: edge captures of the timer and the interrupt handlers that pass them to the decoder (gd32f4_sched.c, stm32f4-discovery.c). |
| `CaptureSpec.v` | What should reach the decoder. |
| `CaptureProofs.v` | Proofs about the capture handlers. |
| `P_Captures.v` | C50, C72, C73: trigger captures and the edges captured. |
| `Adc.v` | The external ADCs: the command sequences and the decoding of the responses (src/platforms/common/tlv2553_adc.h, ad7888_adc.h, max11632_adc.h) and the sampling interrupt (gd32f4_sensors.c 99-121, stm32f4-discovery.c 393-416). |
| `AdcSpec.v` | The converters, from their data sheets, and what a reading should be. |
| `P_Adc.v` | C51: ADC results are attributed to the channel that was sampled. |
| `Flash.v` | Saving the configuration to flash and loading it at start-up (stm32f4-discovery.c 904-943 and stm32f4-discovery.ld; gd32f4_init.c 216-246 and gd32f4.ld). |
| `P_Flash.v` | C52, C74: saving the configuration. |
| `WheelCam.v` | A turning missing-tooth wheel with a cam pulse every second turn: the specification for C75. |
| `WheelCamProofs.v` | The missing-tooth decoder with cam sync on a steadily turning wheel. |
| `P_WheelCam.v` | C75: a missing-tooth decoder with cam sync on a turning wheel. |
| `Sim.v` | The built-in trigger simulator (src/sim.c). |
| `SimSpec.v` | What the simulated wheel should look like: the specification for C53. A wheel of `n` tooth positions per turn, numbered on and on. Position 1 of every turn carries no tooth; on every other turn the cam pulse is there. |
| `P_Sim.v` | C53: the built-in test wheel. |
| `CrankSpec.v` | A crank that turns at a constant speed, and what it means that an edge is on its angle: the specification for C77. |
| `P_Crank.v` | C77: pulses end at the commanded crank angle. |
| `P_CrankEven.v` | C77 for a wheel with equally spaced teeth and cam sync. |
| `SparkSpec.v` | What C84 and C85 say: one spark and one injection per engine cycle, each at its angle and with its length. |
| `SparkAbs.v` | One ignition or fuel output over many engine cycles, in true time: the bookkeeping behind C84 and C85. |
| `Spark.v` | One ignition or fuel output over many engine cycles: the calls of schedule_ignition_event or schedule_fuel_event after every tooth, interleaved with the buffer swap interrupt and with the work on the other outputs. |
| `SparkProofs.v` | The firmware of Spark.v does what the machine of SparkAbs.v does (for C84 and C85). |
| `SparkAim.v` | What the decoder shows after each tooth of a steadily turning crank makes the code aim at the sparks of the engine's cycles (for C84 and C85). |
| `P_Spark.v` | C84 and C85: one spark and one injection per engine cycle, each at its angle and with its length. |
| `Freq.v` | The frequency inputs of the gd32f4 platform: the handlers that turn captures into sensor updates (gd32f4_sched.c 113-122 and 154-168, gd32f4_sensors.c 118-190). |
| `FreqSpec.v` | What the frequency inputs should report: the specification for C78. |
| `P_Freq.v` | C78: the frequency inputs. |
| `FuelSpec.v` | The injection as the operator understands it: the specification for C79. |
| `FuelAccuracy.v` | Accuracy of the fuelling computation (C79). |
| `P_Fuel.v` | C79: the injection is the amount of fuel the configuration asks for. |
| `Wire.v` | What the console sends: the bytes of a message (written by the tinycbor library), the event, description and feed messages, and console_process (src/console.c 1591-1637). |
| `WireSpec.v` | What the bytes of a CBOR item mean (RFC 8949 section 3, IEEE 754 binary32), and what the messages of INTERFACE.md should say. |
| `WireProofs.v` | The encoder writes what it is given, and it can be read in one way only. |
| `ConsoleFine.v` | Every number in a response is one the encoder can write, and the settings stay 32-bit values and floats. |
| `P_Wire.v` | C82 and C83: the stream of messages the device sends. |
| `P_Defined.v` | C64, what holds: every request that leaves the knock frequencies alone is carried out, whatever else it contains, for ever; and setting a knock frequency to a finite value from 0 to 1 MHz keeps it so. |
| `VarySpec.v` | What C87 says: one spark and one injection per engine cycle while the speed of the crank changes. |
| `VaryCrank.v` | What the decoder knows of a crank whose speed changes (for C87). |
| `SteerSpec.v` | What C88 says: one spark and one injection per engine cycle while the speed changes and the firmware asks for another advance and another length with every call. |
| `VaryAim.v` | What the decoder shows after each tooth of a crank whose speed changes makes the code aim at the sparks of the engine's cycles (for C87 and C88; after SparkAim.v). |
| `SteerRun.v` | The runs of one output with the commands of each call, for either wheel (for C87 and C88). |
| `P_Vary.v` | C87: one spark and one injection per engine cycle while the speed changes. |
| `P_Steer.v` | C88: one spark and one injection per engine cycle while the speed, the advance, the dwell and the pulse width change. |
| `FwSpec.v` | What C89 speaks about: a run of the whole firmware of System.v, the pulses that go into it, the calls of the scheduler it makes for one output, and what the hardware writes to the output's pin. |
| `FwLink.v` | Runs of the whole firmware (System.v) are runs of one output (Spark.v). |
| `FwRun.v` | Whole runs of the firmware as runs of one output, for any wheel the decoder follows without losing its position. |
| `P_Firmware.v` | C89: the whole firmware, from the trigger pulses to the output pins. |
| `SafeSpec.v` | What C90 speaks about: settings, readings and events that make sense, as conditions on the run of System.v. |
| `SafeDec.v` | The arithmetic of decoding and scheduling is defined on sensible input: no conversion of a float that does not fit. |
| `FwSafe.v` | Every step of System.v is defined and keeps the settings, readings, decoder state, outputs, buffers and callbacks sensible (the release build: assertions are compiled out). |
| `P_Safe.v` | C90: whatever happens, the running firmware executes nothing undefined. |
| `PaceSpec.v` | What C91 speaks about: the conditions of C90 with the speed replaced by the time between teeth. |
| `Pace.v` | Wheels with a missing tooth: the decoder never calculates a speed of 0 while the teeth keep coming. |
| `P_Pace.v` | C91: as long as the teeth of a wheel with a gap keep coming, the running firmware executes nothing undefined. |
| `Rig.v` | The firmware together with its sensors: System.v reads the sensor values from its state, Sensors.v writes them. Here the conversions of src/sensors.c feed the calculations of src/calculations.c, as they do through config.sensors. |
| `RigSpec.v` | What C92 speaks about: sensors whose accepted readings convert to possible values, and events that may happen. |
| `Factory.v` | The sensors of the built-in configuration and the ranges their readings convert to. |
| `RigProofs.v` | Proofs for C92: the sensors' values stay within their boxes, so the firmware stays defined. |
| `P_Rig.v` | C92: from raw readings to the pins: the firmware with its sensors executes nothing undefined. |
| `P_Ship.v` | C93: the firmware as it is shipped executes nothing undefined, from raw readings and paced pulses. |

## 3. Plan per property

| id | title | modelled by | proof | theorems in |
|---|---|---|---|---|
| C01 | Tick comparison survives counter wrap-around | `Word.v` | arithmetic mod 2^32 | `P_Time.v` |
| C02 | Microseconds to ticks is exact in the working range | `F32.v` time_from_us | Flocq exactness | `P_Time.v` |
| C03 | Angles are normalised into one cycle | `F32.v` clamp_angle | loop invariant on floats; divergence witness for the refutation | `P_Time.v` |
| C04 | Table lookup never reads outside the table | `Table.v` | list induction | `P_Table.v` |
| C05 | Table lookup is exact on breakpoints and clamps outside the axis | `Table.v` | list induction, float identities | `P_Table.v` |
| C06 | Table lookup interpolates between the neighbouring cells | `Table.v` | monotone rounding (Flocq) | `P_Table.v` |
| C07 | Table validation accepts exactly the ascending axes | `Table.v` | list induction | `P_Table.v` |
| C08 | Timer callbacks stay ordered | `Callbacks.v` | invariant over operation lists | `P_Callbacks.v` |
| C09 | No timer callback is lost, duplicated or run early | `Callbacks.v` | refinement to `CallbackSpec.v` | `P_Callbacks.v` |
| C10 | The hardware timer is always armed for the earliest pending callback | `Callbacks.v` | invariant over operation lists | `P_Callbacks.v` |
| C11 | The callback table never overflows in the firmware | `System.v` | pigeonhole on callback identities, invariant over executions | `P_Callbacks.v`, `P_System.v` |
| C12 | Edges already handed to the hardware are never changed | `Outputs.v` | case analysis on entry states, every operation | `P_Outputs.v` |
| C13 | Descheduling removes pending pulses but never strands an output on | `Outputs.v` | case analysis | `P_Outputs.v` |
| C14 | An edge is only scheduled when the hardware can still honour it | `Outputs.v` | case analysis; time comparison in a half range | `P_Outputs.v` |
| C15 | Every pulse that turns an output on is followed by its turn-off edge | `Outputs.v`, `Buffers.v` | invariant over interleavings (`OutputRun.v`) | `P_Outputs.v` |
| C16 | The turn-off edge never precedes the turn-on edge | `Outputs.v` | invariant over interleavings | `P_Outputs.v` |
| C17 | Rescheduling preserves fuel pulse width | `Outputs.v` | case analysis | `P_Outputs.v` |
| C18 | Ignition pulses have the commanded dwell and polarity | `Outputs.v`, `F32.v` | float error bounds + case analysis | `P_Pulses.v` |
| C19 | No re-fire within a quarter turn and minimum coil rest | `Outputs.v` | case analysis | `P_Pulses.v` |
| C20 | Each scheduled edge reaches the output hardware exactly once, in its own time slot | `Outputs.v`, `Buffers.v` | invariant relating entries and slots over interleavings | `P_Pulses.v` |
| C21 | Output buffers hold exactly the submitted edges | `Buffers.v` | invariant relating slots to submitted edges | `P_Pulses.v` |
| C22 | Simulator output windows agree with the embedded buffers | `Hosted.v` | simulation against `HostedSpec.v` | `P_Hosted.v` |
| C23 | Position is only reported valid while synchronised | `Decoder.v` | invariant over histories | `P_Decoder.v` |
| C24 | Decoder bookkeeping stays in range | `Decoder.v` | invariant over histories | `P_Decoder.v` |
| C25 | Missing-tooth wheel at constant speed synchronises and tracks the crank angle | `Decoder.v`, `Wheel.v` | induction over teeth; float error bounds | `P_Wheel.v` |
| C26 | Even-tooth wheel with cam sync at steady speed synchronises and tracks the crank angle | `Decoder.v`, `EvenSpec.v` | induction over teeth | `P_Even.v` |
| C27 | Even-tooth decoder detects extra and missing teeth | `Decoder.v` | case analysis in all states | `P_Decoder.v` |
| C28 | Missing-tooth decoder detects a lost or extra tooth | `Decoder.v` | case analysis in all states | `P_Decoder.v` |
| C29 | Engine stall is detected | `Decoder.v`, `System.v` | case analysis; execution invariant | `P_Decoder.v`, `P_System.v` |
| C30 | Estimated crank angle is consistent with the last tooth | `Decoder.v` | float error bounds | `P_Decoder.v` |
| C31 | Rev limiter hysteresis | `Calc.v` | history induction against `CalcSpec.v` | `P_Calc.v` |
| C32 | Cuts stop new pulses | `Calc.v`, `System.v` | case analysis | `P_System.v` |
| C33 | Tip-in enrichment holds and expires | `Calc.v` | history induction against `CalcSpec.v` | `P_Calc.v` |
| C34 | Fuelling computation is free of undefined behaviour on sane inputs | `Calc.v` | interval analysis over binary32 (`Interval.v`) | `P_Calc.v` |
| C35 | Linear sensor conversion is monotone and exact at its end points | `Sensors.v` | Flocq monotonicity | `P_Sensors.v` |
| C36 | Sensor faults substitute the configured value | `Sensors.v` | case analysis | `P_Sensors.v` |
| C37 | Lag filter stays between old and new value | `Sensors.v` | Flocq monotonicity | `P_Sensors.v` |
| C38 | Windowed averaging uses only samples from the window | `Sensors.v` | history induction against `SensorSpec.v` | `P_Sensors.v` |
| C39 | Fuel pump runs only while priming or when the engine turned recently | `Tasks.v` | history induction in true time (`TaskSpec.v`) | `P_Tasks.v` |
| C40 | Check engine light shows the highest priority condition and holds it | `Tasks.v` | history induction in true time | `P_Tasks.v` |
| C41 | Boost control output follows its decision table | `Tasks.v` | case analysis, float bounds | `P_Tasks.v` |
| C42 | Emergency shutdown turns everything off | `Tasks.v`, `System.v` | composition with the output model | `P_Tasks.v` |
| C43 | The event log is a loss-aware FIFO | `EventLog.v` | refinement to a queue under all interleavings | `P_EventLog.v` |
| C44 | Request framing is memory safe and resynchronises | `Framing.v`, `CborGrammar.v` | induction over reads; the reader is proved to decide the inductive grammar of RFC 8949 | `P_Framing.v` |
| C45 | GET never changes the configuration | `Console.v` | induction over the settings tree | `P_Console.v` |
| C46 | SET only changes what its path designates | `Console.v` | induction over the settings tree against `ConsoleSpec.v` | `P_Console.v` |
| C47 | SET followed by GET returns what was set | `Console.v` | per setting, composed over paths | `P_Console.v` |
| C48 | Table resizing over the console stays within storage | `Console.v` | case analysis | `P_Console.v` |
| C49 | Every request gets one response carrying its id and a success flag | `Console.v` | induction | `P_Console.v` |
| C50 | Simultaneous trigger captures are processed in time order | `Captures.v` | all interleavings of edges and handler steps | `P_Captures.v` |
| C51 | ADC results are attributed to the channel that was sampled | `Adc.v` | against the converters of `AdcSpec.v` | `P_Adc.v` |
| C52 | Saving the configuration erases every flash sector it programs | `Flash.v` | arithmetic over the sector map | `P_Flash.v` |
| C53 | The built-in test wheel drives the decoder to sync | `Sim.v`, `Decoder.v` | induction over simulated teeth; composition with C75 | `P_Sim.v` |
| C54 | No pulse starts while the engine position is unknown | `System.v` | invariant over executions | `P_System.v` |
| C55 | The timer interrupt never finds an empty callback list | `Callbacks.v` | invariant; counterexample for the refuted case | `P_Callbacks.v` |
| C56 | A zero-length pulse does not leave an output on | `Wave.v` | waveform semantics | `P_Pulses.v` |
| C57 | The pin shows exactly the planned waveform | `Wave.v` | waveform semantics over buffer swaps | `P_Pulses.v` |
| C58 | Angle and time conversions are accurate and monotone | `F32.v` | Flocq error bounds | `P_Pulses.v` |
| C59 | The position reference belongs to the most recent tooth | `Decoder.v` | invariant over histories | `P_Decoder.v` |
| C60 | Rescheduling never pushes a pending pulse back by more than half a turn | `Outputs.v` | case analysis + float bounds | `P_Delay.v` |
| C61 | Even-tooth decoders reject a tooth whose speed is out of tolerance and accept one within | `Decoder.v` | float comparison bounds | `P_Even.v` |
| C62 | The knock level is the level of the last complete block of samples | `Sensors.v` | block induction; Goertzel identity over the reals | `P_Sensors.v` |
| C63 | The knock filter is tuned to the configured frequency | `Sensors.v` | exact float division | `P_Sensors.v` |
| C64 | No console request makes the firmware execute undefined behaviour | `Console.v` | induction over the settings tree; counterexample | `P_Console.v`, `P_Defined.v` |
| C65 | Every sensor takes the reading of its own input | `Sensors.v` | induction over inputs | `P_SensorInputs.v` |
| C66 | The derivative of a sensor is its change per second | `Sensors.v` | float bounds; counterexample for frequency inputs | `P_SensorInputs.v` |
| C67 | Thermistor readings are converted by the Steinhart-Hart formula | `Sensors.v` | for every `logf` | `P_SensorInputs.v` |
| C68 | Under the whole firmware no planned edge is missed and every committed edge is played | `SystemOutputs.v` | refinement of firmware steps to the atomic output steps | `P_SystemOutputs.v` |
| C69 | The end-of-injection callback is armed for the turn-off of the injection | `SystemOutputs.v` | invariant | `P_SystemOutputs.v` |
| C70 | USB packets are received without loss or overflow | `Framing.v` | all interleavings; counterexamples | `P_Framing.v` |
| C71 | Messages are sent whole | `Framing.v` | induction | `P_Framing.v` |
| C72 | No trigger edge is lost without notice | `Captures.v` | all interleavings; counterexamples | `P_Captures.v` |
| C73 | An input captures exactly the edges it is configured for | `Captures.v` | computation over all configurations | `P_Captures.v` |
| C74 | A power failure while saving the configuration | `Flash.v` | all crash points | `P_Flash.v` |
| C75 | A missing-tooth wheel with cam sync gives the absolute position | `Decoder.v`, `WheelCam.v` | induction over teeth and cam pulses | `P_WheelCam.v` |
| C76 | A lost or an extra cam pulse is noticed | `Decoder.v`, `WheelCam.v` | induction over teeth and cam pulses | `P_WheelCam.v` |
| C77 | The spark comes, and the injection ends, at the commanded crank angle | `Decoder.v`, `Outputs.v` | composition of C75 with the float error bounds of C58 | `P_Crank.v`, `P_CrankEven.v` |
| C78 | Frequency inputs report the frequency and pulse width of the signal | `Freq.v` | Capture registers, handlers and the prescaled counter; by induction over edges and handler runs the updates are those of the edges seen (`FreqSpec.v`); the divisions by the relative error calculus. | `P_Freq.v` |
| C79 | The injection is the amount of fuel the configuration asks for | `Calc.v` | Against real-number formulas (`FuelSpec.v`) by the relative error calculus with ranges (`FuelAccuracy.v`). | `P_Fuel.v` |
| C80 | Advance and dwell are the configured ones | `Calc.v` | Case analysis on the kind of dwell; accuracy of the time conversion and of one multiplication. | `P_Fuel.v` |
| C81 | Cuts act when a limit is exceeded and only then | `Calc.v` | The flag invariant of C31 and the accuracy of both time conversions. | `P_Fuel.v` |
| C82 | What the host receives is a sequence of self-delimiting CBOR messages with one meaning | `Wire.v` | The encoder at byte level; an independent relation between bytes and data (`WireSpec.v`, RFC 8949); soundness by induction over items, uniqueness by prefix-freeness of the RFC grammar. | `P_Wire.v` |
| C83 | The feed, its description and the events say what the host thinks they say | `Wire.v`, `EventLog.v` | Feed and description from one list of nodes against an independent dictionary of quantities; composition with C43 for the events; induction over calls with the true times for the cadence. | `P_Wire.v` |
| C84 | A running engine gets exactly one spark per cycle from each coil, at its angle and with its dwell | `Spark.v`, `Outputs.v`, `Buffers.v`, `Decoder.v` | The output as a machine in true time (`SparkAbs.v`) with an invariant over its place in the cycle (idle, pending for spark j, done with spark j); the firmware of `Spark.v` refines it (`SparkProofs.v`); the aims of the machine follow from the accuracy of the decoder and of the angle arithmetic (`SparkAim.v`, from C77); induction over runs of any length and interleaving. | `P_Spark.v` |
| C85 | A running engine gets exactly one injection per cycle from each injector, ending at its angle and exactly as long as commanded | `Spark.v`, `Outputs.v`, `Buffers.v`, `Decoder.v` | The machine of C84 with the fuel rule of schedule_output_event_safely: the invariant adds that the planned turn-off is exactly one pulse width after the turn-on, which every re-plan keeps; the decision of schedule_fuel_event is that of schedule_ignition_event with no advance and no rest. | `P_Spark.v` |
| C86 | The periodic tasks together drive the pump, the boost valve and the check engine light, and nothing else | `Tasks.v` | Induction over the history of runs: the kept state of run_tasks is that of the pump's history (C39) and that of the light's (C40); bits of the port by the lemmas on setting and clearing one. | `P_AllTasks.v` |
| C87 | An engine that speeds up and slows down still gets exactly one spark and one injection per cycle | `Spark.v`, `Outputs.v`, `Buffers.v`, `Decoder.v` | The machine of C84 asks only that due times are between a shortest and a longest cycle apart; around each tooth the crank turns like a steady one up to delta, which bounds the measured speeds (VaryCrank.v) and with them the error of each plan (VaryAim.v). | `P_Vary.v` |
| C88 | Each cycle's spark and injection obey the commands of that cycle while advance, dwell and pulse width change with every call | `Spark.v`, `Outputs.v`, `Buffers.v`, `Decoder.v` | The machine of SparkAbs.v has per-call targets and lengths; the cycle a call is for never goes back if the advance is retarded slowly. Each edge is traced to the call that set it last; C87 is the special case of equal commands. Refutation of the unconditional claim by a run. | `P_Steer.v` |
| C89 | The whole firmware, from trigger pulses to output pins, makes one spark and one injection per cycle as its own calculations command | `System.v` (all of it) | Simulation: every event of the firmware is a sequence of steps of the one-output machine of Spark.v (FwLink.v); the decoder invariant along the run comes from C75 (FwRun.v); then C88 applies. The example runs the firmware for 18 teeth of a 4-1 wheel. | `P_Firmware.v` |
| C90 | Whatever happens, the running firmware executes nothing undefined | `System.v` (all of it) | Invariant `fsafe` of the whole firmware state, kept by every event (FwSafe.v), with `dsafe` for the decoder (SafeDec.v); every partial operation met on the way is shown defined by interval arithmetic on the real values of the floats. The example checks `sound` by computation for a run of 26 events. | `P_Safe.v` |
| C91 | As long as the teeth keep coming, no speed the firmware calculates can lead it into undefined behaviour | `System.v` (all of it) | Decoder invariant `steady` (Pace.v): the tooth times kept since the last loss are `close`, so every speed averaged over them is at least 1 RPM. Firmware invariant `pw` (P_Pace.v): besides C90's `fsafe`, either no output waits for a callback or both speeds are at least 1. It implies C90's condition at every event. | `P_Pace.v` |
| C92 | From the voltages on the sensor inputs to the pins nothing undefined is executed | `Rig.v` (sensors and firmware together), `Factory.v` (the built-in sensors) | Invariant `rsafe` (RigProofs.v): C90's `fsafe`, each sensor's value, lag state and window sum within bounds by interval arithmetic; a conversion's result is in the box because it is a fault value, an accepted reading's, a mean of such, or between two such. `Factory.v` checks the built-in sensors with the same interval lemmas. | `P_Rig.v` |
| C93 | The firmware as it is shipped executes nothing undefined while the engine turns | `Rig.v`, `Factory.v`, `DefaultConfig.v` | C91's invariant `going` is kept by the events of Rig.v because a sensor event is a change of the firmware's readings within their ranges (C92); the built-in configuration is checked against the conditions by computation and interval lemmas. | `P_Ship.v` |

## 4. Trusted base

* Coq 8.16.1's kernel, including `vm_compute`.
* The standard library's axioms listed per theorem in section 7.  No axioms of our own.
* Only Flocq (for facts about rounding) and the standard library are imported.
* The transcription of C into Gallina (each definition cites the lines it models), and the
  assumptions about the compiler and the hardware: binary32 arithmetic without contraction or
  excess precision, 32-bit `unsigned int`, interrupts taken only where the code leaves them
  enabled, and the descriptions of timers, DMA, USB buffers, converters and flash at the head
  of `Callbacks.v`, `Buffers.v`, `Captures.v`, `Framing.v`, `Adc.v`, `Flash.v`, `Freq.v`, `Wave.v`.
* tinycbor is represented by the contract `reads_cbor` (framing), by the query functions in
  `Cbor.v` (requests) and by the byte encoder in `Wire.v` (messages); `cosf`, `logf` and `qsort` by contracts stated in the theorems or in the
  comments of the definitions that use them.

## 5. What is modelled and what is not

Modelled, function by function:

* `src/util.c`, `src/table.c`, `src/scheduler.c`, `src/decoder.c`, `src/calculations.c`,
  `src/sensors.c`, `src/tasks.c`, `src/sim.c` - everything outside `#ifdef UNITTEST`, except the
  debug statistics;
* `src/console.c` - the event log, the settings tree (get, set, describe, structure), request
  processing, request framing, message output, and the feed, description and event messages byte
  for byte;
* `src/config.c` - the default configuration (tables, fuelling, ignition, limits, outputs,
  decoder); `src/viaems.c` through `System.v` (the order of its calls);
* `src/platforms/common/*` - the output buffers and the three ADC front ends;
* `src/platforms/gd32f4/*` and `src/platforms/stm32f4-discovery.c` - trigger capture interrupts
  and capture configuration, the buffer swap interrupt, the event timer, USB console receive and
  transmit (gd32f4), the frequency inputs (gd32f4), saving and loading the configuration, PWM;
* `src/platforms/hosted.c` - the output windows and the order of edges and reports.

Not modelled: clock, GPIO and DMA register initialisation; the USB protocol stack and its
descriptors; `hosted.c`'s threads, command line and file descriptors; `test.c` and
`benchmark.c`; interrupt priorities beyond the pre-emption they allow; the wall-clock cost of
code (only the time windows a schedule must meet are).

## 6. Findings

Behaviour that the proofs showed to differ from what a user would expect.  Each is a
`…_refuted` theorem, an explicit hypothesis of a theorem, or visible in a theorem's statement.

Decoder
* The angle drifts for tooth widths that are not short binary fractions (C25).
* With two required teeth the missing-tooth decoder can sync falsely on an early start (C25).
* `trigger_min_rpm` is ignored by the missing-tooth decoders; `max_change` 0 means 0.5.
* A speed variation before sync does not restart the count; the RPM is kept after losing sync;
  camsync flags are not reset on losing sync; the loss reason is not recorded when the
  missing-tooth decoder loses its cam sync.
* The first tooth after gaining sync arms no expiry; the position reference is stale until the
  next tooth (C59).
* The even-tooth decoders never sync when the RPM window is 0 (the default) or 1.
* The even-tooth decoder without cam sync treats cam pulses as teeth.
* The tooth RPM is truncated to an integer, so the angle error grows with 1/RPM (C77).
* The position is reported as known at a speed of 0, and infinity is converted to an integer: an
  engine with a gap in its wheel turned by hand (C90), one that stands still for over a minute
  before its position is found (C91), two teeth at one tick, a test wheel at a billion RPM (C90).

Outputs and scheduler
* `clamp_angle` does not terminate for very large angles (C03).
* A stray timer interrupt can find an empty callback list after the counter wraps (C55).
* An output that is disabled over the console with a pending pulse keeps it scheduled.
* Emergency shutdown leaves ignition pins, the decoder's position and submitted edges (C42).
* gd32f4: `set_output` and `set_gpio` are read-modify-write; `set_pwm` is not clamped; the
  bootloader reset does not shut the outputs down.

Calculations, sensors and tasks
* Zero injections per cycle, lambda 0, RPM 0 or a negative pulse width lead to undefined
  conversions (C34).  The cut is evaluated before the validity check, so a fuel callback at
  RPM 0 is undefined.
* Tip-in enrichment returns after the time counter has wrapped (C33).
* A sensor whose window total is 0 never returns; `raw_min == raw_max` reads 0; lag 100 is not
  exact (C35-C38).  The derivative of a frequency sensor uses the ADC's sample rate (C66).
* The built-in fuel temperature sensor has no fault limits: a long but valid pulse reads as 949
  Celsius, the fuel's density becomes negative, and the next tooth converts a negative pulse width
  to an unsigned number (C92).  The console describes a sensor's lag as 0-1; the code uses 0-100.
* The fuel pump starts again after the counter wraps, and stops during long cranking without
  sync (C39).  The check-engine light is not held for three seconds after the condition was last
  seen (C40).

Console
* Numbers of 2^31 and more are rejected, negative ones wrap (C46, C47).
* A SET of a knock frequency can execute an undefined conversion (C64); a SET of the first knock
  input also reconfigures the second.
* An axis may be resized by a path to one of its elements; extra path components are ignored.
* A request without a method gets `success` twice, an unknown method none (C49).  A response above
  16384 bytes is dropped without notice.
* The five-second timer is not renewed for each request (C44); a map head whose count is in
  several bytes is lost if a read ends inside it (C44).
* gd32f4 USB: a packet that arrives during `console_read` is lost or overflows the buffer (C70).

Platforms
* Saving erases one sector too few for exactly one configuration size (C52), and a power failure
  while saving loses the old configuration (C74).
* The simulated wheel's position in the cycle is right for 36 teeth only (C53).
* gd32f4 has no overcapture detection (C72); the polarity of one input is written to another
  (C73); captures of disabled and frequency inputs reach the decoder.
* stm32f4: an edge between the capture read and the flag clear is lost without notice (C72).
* MAX11632 pins 0 and 1 always read 0 (C51).  The frequency input's prescaler is off by one.
* A frequency input never notices that its signal stopped; the pulse width input does, but
  reports signals below 1 Hz as valid and several times too fast (C78).

## 7. Axioms per theorem

As printed by `Print Assumptions`; all are axioms of the standard library (real numbers, classical logic, functional extensionality).

**No axioms** (closed under the global context): `C01_time_before`, `C01_time_before_or_equal`, `C01_time_in_range`, `C01_time_diff`, `C01_sharp`, `C03_identity`, `C03_diverges_refuted`, `C04_one_axis`, `C04_two_axis`, `C04_empty_axis_refuted`, `C07_axis`, `C07_two_axis`, `C08_ordered`, `C09_schedule_completes`, `C09_interrupt_completes`, `C09_runs`, `C09_not_lost`, `C10_armed`, `C10_overdue`, `C11_bound`, `C11_overflow_refuted`, `C11_firmware`, `C11_firmware_schedule`, `C12_final_edges`, `C12_schedule_ignition`, `C12_schedule_fuel`, `C12_invalidate`, `C13_not_yet_submitted`, `C13_already_submitted`, `C13_history`, `C14_feasible`, `C14_whole_or_nothing`, `C14_wide_pulse_refuted`, `C15_turn_off_follows`, `C16_order`, `C16_fuel_is_orderly`, `C16_ignition_refuted`, `C17_fuel_width`, `C19_quarter_turn`, `C19_reschedule_refuted`, `C20_edge`, `C20_startup`, `C21_exact`, `C21_reconfigure_refuted`, `C21_high_pins_refuted`, `C22_window`, `C22_level_unique`, `C22_one_window`, `C22_edge_plays`, `C22_safe`, `C22_sorting`, `C23_valid_is_sync`, `C23_loss`, `C23_expiry_overflow`, `C23_sync_is_valid`, `C24_in_range`, `C24_one_required_refuted`, `C24_window_refuted`, `C24_no_teeth_refuted`, `C24_same_tick_refuted`, `C25_early_refuted`, `C27_count`, `C28_count`, `C28_half_refuted`, `C29_armed`, `C29_expires`, `C29_first_tooth_refuted`, `C29_pending`, `C29_stall`, `C30_noise_refuted`, `C31_hysteresis`, `C31_cut`, `C32_cut`, `C32_callback`, `C33_tipin`, `C33_held`, `C33_expired`, `C33_from_table`, `C33_wrap_refuted`, `C34_zero_rpm_refuted`, `C34_lambda_refuted`, `C34_negative_refuted`, `C35_degenerate`, `C35_maximum_refuted`, `C36_fault`, `C36_usable`, `C36_status`, `C36_adc`, `C36_range_not_reported_refuted`, `C37_off`, `C37_hundred_refuted`, `C38_zero_width_refuted`, `C39_pump`, `C39_stops`, `C39_restart_refuted`, `C39_cranking_refuted`, `C40_condition`, `C40_present`, `C40_reason`, `C40_off`, `C40_hold`, `C40_last_seen_refuted`, `C41_duty`, `C41_gd32_refuted`, `C42_shutdown`, `C42_ignition_refuted`, `C42_submitted_refuted`, `C43_order`, `C43_gaps`, `C43_delivery`, `C44_contract`, `C44_grammar`, `C44_stale_timer_refuted`, `C44_split_head_refuted`, `C45_only_set_changes`, `C45_get`, `C46_set_confined`, `C46_nowhere`, `C46_strict_refuted`, `C47_get`, `C47_set`, `C47_set_then_get`, `C47_large_unsigned`, `C48_within_storage`, `C48_others_total`, `C49_response`, `C49_no_method_refuted`, `C49_unknown_method_refuted`, `C49_too_long_refuted`, `C50_gd32`, `C50_stm32`, `C50_per_input`, `C50_race_refuted`, `C51_tlv2553`, `C51_ad7888`, `C51_max11632`, `C51_max11632_refuted`, `C52_stm32`, `C52_stm32_refuted`, `C52_gd32`, `C53_wheel`, `C54_no_start_without_position`, `C54_nothing_submitted`, `C54_disabled_output_refuted`, `C55_stray_interrupt_refuted`, `C55_still_armed_refuted`, `C55_hosted_double_match_refuted`, `C56_zero_width_refuted`, `C57_waveform`, `C59_reference`, `C59_even_nosync`, `C59_gain_refuted`, `C62_blocks`, `C62_update`, `C64_undefined_refuted`, `C65_adc`, `C65_adc_isolated`, `C65_freq`, `C66_freq_refuted`, `C68_refines`, `C68_never_missed`, `C68_committed_edge_plays`, `C68_nothing_else_plays`, `C69_callback_is_turn_off`, `C69_ignition_has_none`, `C69_callback_is_armed`, `C70_usb_reads`, `C70_packet_lost_refuted`, `C70_overflow_refuted`, `C71_sent_whole`, `C72_stm32`, `C72_stm32_race_refuted`, `C72_gd32_refuted`, `C73_gd32`, `C73_gd32_both_refuted`, `C73_stm32`, `C73_stm32_disabled_refuted`, `C74_program_safe`, `C74_interrupted_refuted`, `C78_every_edge`, `C78_stopped_signal_refuted`, `C78_timeout`, `C83_feed`, `C83_events`, `C64_defined`, `C83_order`, `C90_same_tick_refuted`, `C90_stop_refuted`, `C90_callback_refuted`, `C90_test_speed_refuted`, `C91_pause_refuted`.

**`ClassicalDedekindReals.sig_forall_dec`, `ClassicalDedekindReals.sig_not_dec`, `Classical_Prop.classic`, `FunctionalExtensionality.functional_extensionality_dep`**: `C02_exact`, `C02_approx`, `C02_undefined`, `C03_range`, `C03_terminates`, `C03_exact`, `C04_full_axis`, `C04_full_axis_refuted`, `C05_one_axis`, `C05_two_axis`, `C05_top_refuted`, `C06_one_axis`, `C06_two_axis`, `C06_containment_refuted`, `C07_bracketing`, `C07_accepts_ascending`, `C18_ignition`, `C18_fuel`, `C19_rest`, `C25_sync`, `C25_expiry`, `C25_angle`, `C25_angle_exact`, `C25_speed`, `C25_drift_refuted`, `C26_sync`, `C26_before_cam`, `C26_angle`, `C26_angle_exact`, `C26_speed_expiry`, `C26_stale_refuted`, `C26_window_refuted`, `C28_intervals`, `C28_disjoint`, `C29_even_time`, `C29_missing_time`, `C30_range`, `C30_accuracy`, `C30_monotone`, `C34_defined`, `C34_injections_refuted`, `C35_monotone`, `C35_minimum`, `C35_maximum`, `C35_bounded`, `C37_between`, `C37_mean`, `C37_settles`, `C38_average`, `C38_window`, `C41_range`, `C41_pwm`, `C41_stm32`, `C44_no_overflow`, `C44_only_requests`, `C44_waits`, `C44_recovers`, `C44_delivers`, `C51_knock`, `C51_update`, `C53_safe`, `C53_other_counts_refuted`, `C53_sync`, `C58_time_of_angle`, `C58_time_monotone`, `C58_angle_of_time`, `C60_ignition`, `C60_fuel`, `C61_tolerance`, `C63_tuning_refuted`, `C66_derivative`, `C67_monotone`, `C67_resistance`, `C67_temperature`, `C75_sync`, `C75_sync_before_cam`, `C75_expiry`, `C75_angle`, `C75_angle_exact`, `C75_speed`, `C75_absolute`, `C76_missing_cam`, `C76_extra_cam`, `C77_spark`, `C77_injection`, `C78_frequency`, `C78_pulse`, `C78_slow_signal_refuted`, `C79_injection`, `C80_ignition`, `C81_cut`, `C82_stream`, `C82_next`, `C82_settings`, `C83_cadence`, `C83_once_per_second`, `C63_tuning`, `C64_frequency`, `C77_spark_even`, `C77_injection_even`, `C84_sparks`, `C84_sparks_even`, `C85_injections`, `C85_injections_even`, `C86_tasks`, `C87_sparks`, `C87_sparks_even`, `C87_injections`, `C87_injections_even`, `C88_sparks`, `C88_sparks_even`, `C88_injections`, `C88_injections_even`, `C88_jump_refuted`, `C89_sparks`, `C89_injections`, `C90_defined`, `C90_commands`, `C90_slow_refuted`, `C91_defined`, `C91_speed`, `C92_defined`, `C92_values`, `C92_factory`, `C92_fuel_temperature_refuted`, `C93_defined`, `C93_shipped`, `C93_speed`.

**`ClassicalDedekindReals.sig_forall_dec`, `FunctionalExtensionality.functional_extensionality_dep`**: `C38_only_window`.

**`ClassicalDedekindReals.sig_forall_dec`, `ClassicalDedekindReals.sig_not_dec`, `FunctionalExtensionality.functional_extensionality_dep`**: `C62_power`.
