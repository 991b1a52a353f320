{"id": "C01", "title": "Tick comparison survives counter wrap-around", "statement": "For any two real (unbounded) instants less than 2^31 ticks apart, the tick comparison functions applied to their 32-bit counter values decide exactly which instant is earlier; for any window shorter than 2^32 ticks the range test says exactly whether an instant (within one counter period after the window start) lies in the window; the tick difference is the true elapsed time while that is below 2^32.", "quantifier": "all pairs/triples of instants, including every position relative to counter wrap", "why_tests_cant": "The 32-bit counter wraps every 18 minutes; tests only sample a few positions around zero.", "anchors": ["src/util.c:time_before", "src/util.c:time_before_or_equal", "src/util.c:time_in_range", "src/util.c:time_diff"]}
{"id": "C02", "title": "Microseconds to ticks is exact in the working range", "statement": "Converting a duration in whole microseconds to timer ticks gives exactly 4 ticks per microsecond for every duration up to 2^24 us (16.7 s); beyond that the conversion is the float rounding of the duration, and from 2^30 us on it has undefined behaviour.", "quantifier": "all durations in microseconds", "why_tests_cant": "The path goes through single precision floats; only finitely many values can be sampled.", "anchors": ["src/util.c:time_from_us"]}
{"id": "C03", "title": "Angles are normalised into one cycle", "statement": "Normalising an angle against a cycle length returns a value in [0, cycle) whenever it terminates, leaves an angle that is already in range untouched, and terminates for every finite angle of reasonable magnitude; for very large magnitudes the loop never terminates.", "quantifier": "all single precision angles, NaN and infinities included", "why_tests_cant": "Termination and range over all floats cannot be sampled.", "anchors": ["src/util.c:clamp_angle"]}
{"id": "C04", "title": "Table lookup never reads outside the table", "statement": "Looking up any value in a table with a non-empty ascending axis of at most 23 entries reads only cells inside the axis and data arrays. (For a full 24-entry axis and an input at or above the last breakpoint the lookup reads one past the arrays.)", "quantifier": "all tables, all axis lengths, all lookup values including NaN", "why_tests_cant": "Needs all table contents and all inputs.", "anchors": ["src/table.c:axis_find_cell_lower", "src/table.c:interpolate_table_oneaxis", "src/table.c:interpolate_table_twoaxis", "src/table.h:MAX_AXIS_SIZE"]}
{"id": "C05", "title": "Table lookup is exact on breakpoints and clamps outside the axis", "statement": "For a finite table with strictly ascending axis, looking up a breakpoint returns the stored cell value; looking up anything below the first breakpoint returns the first cell; looking up anything at or above the last breakpoint returns the last cell, provided the storage just past the axis is finite and differs from the last breakpoint (otherwise the result is NaN).", "quantifier": "all tables and lookup values", "why_tests_cant": "Quantifies over all table contents and inputs, and over stale storage beyond the axis.", "anchors": ["src/table.c:interpolate_table_oneaxis", "src/table.c:interpolate_table_twoaxis"]}
{"id": "C06", "title": "Table lookup interpolates between the neighbouring cells", "statement": "For a finite table with strictly ascending axis and an in-range lookup value, the result lies between the two neighbouring cell values up to one rounding of the final sum, i.e. in the interval spanned by the two cell values with the far end replaced by float(a + float(b-a)); strict containment does not hold because of rounding.", "quantifier": "all tables and lookup values", "why_tests_cant": "Rounding behaviour over all floats cannot be enumerated.", "anchors": ["src/table.c:interpolate_table_oneaxis"]}
{"id": "C07", "title": "Table validation accepts exactly the ascending axes", "statement": "The configuration check accepts an axis exactly when it has at most 24 entries and no entry is smaller than its predecessor; the lookup's cell search then finds the cell whose breakpoints bracket the value.", "quantifier": "all axes", "why_tests_cant": "Ranges over all axis contents.", "anchors": ["src/table.c:table_valid_axis", "src/table.c:table_valid_oneaxis", "src/table.c:table_valid_twoaxis", "src/config.c:config_valid"]}
{"id": "C08", "title": "Timer callbacks stay ordered", "statement": "Under any sequence of scheduling, rescheduling and expiry of callbacks whose deadlines stay within half a counter period, the pending callbacks are always kept in non-decreasing deadline order and each pending callback appears exactly once.", "quantifier": "all sequences of schedule/reschedule/expire operations", "why_tests_cant": "Invariant over unbounded operation histories.", "anchors": ["src/scheduler.c:schedule_callback", "src/scheduler.c:callback_insert", "src/scheduler.c:callback_remove"]}
{"id": "C09", "title": "No timer callback is lost, duplicated or run early", "statement": "A scheduled callback stays pending with its latest deadline until it runs; it runs at most once per scheduling, only when its deadline is not in the future and no other callback is due earlier; when the timer interrupt returns with a callback still overdue, the armed time has passed, so the interrupt is pending again.", "quantifier": "all sequences of schedule/reschedule/expire operations", "why_tests_cant": "History property.", "anchors": ["src/scheduler.c:schedule_callback", "src/scheduler.c:scheduler_callback_timer_execute"]}
{"id": "C10", "title": "The hardware timer is always armed for the earliest pending callback", "statement": "After every scheduling operation and every timer interrupt, if any callback is pending the event timer is armed for the earliest deadline.", "quantifier": "all sequences of schedule/reschedule/expire operations", "why_tests_cant": "History property; a single unarmed interleaving stalls the engine.", "anchors": ["src/scheduler.c:schedule_callback", "src/scheduler.c:scheduler_callback_timer_execute"]}
{"id": "C11", "title": "The callback table never overflows in the firmware", "statement": "In any execution of the whole firmware model the number of pending callbacks never exceeds 18 (16 outputs, decoder expiry, test trigger), which is below the table capacity of 32; with more than 32 distinct callbacks the insert would write out of bounds.", "quantifier": "all executions of the system", "why_tests_cant": "Whole-system invariant.", "anchors": ["src/scheduler.c:callback_insert", "src/decoder.c", "src/sim.c", "src/scheduler.c:schedule_fuel_event"]}
{"id": "C12", "title": "Edges already handed to the hardware are never changed", "statement": "Scheduling, rescheduling, descheduling and invalidating outputs never change the time, polarity state or status of an edge that has been submitted to the output hardware or has fired, except to recycle a pulse whose both edges have fired.", "quantifier": "all events, all states, all requested times, any interleaving with buffer swaps", "why_tests_cant": "Races with the DMA interrupt; all states.", "anchors": ["src/scheduler.c:schedule_output_event_safely", "src/scheduler.c:deschedule_event", "src/scheduler.c:sched_entry_enable", "src/scheduler.c:sched_entry_disable"]}
{"id": "C13", "title": "Descheduling removes pending pulses but never strands an output on", "statement": "After an output is descheduled: if its start edge had not been submitted, neither edge will happen; if its start edge was already submitted or fired, its stop edge is kept, so the output is still turned off.", "quantifier": "all reachable states", "why_tests_cant": "All states and interleavings.", "anchors": ["src/scheduler.c:deschedule_event", "src/scheduler.c:invalidate_scheduled_events"]}
{"id": "C14", "title": "An edge is only scheduled when the hardware can still honour it", "statement": "Every edge that becomes scheduled has a time not before the platform's earliest schedulable time at that moment; a start edge later than that limit is scheduled for exactly the requested time, and a request that is already too late leaves the pulse unscheduled as a whole (never a stop without its start or a start without its stop).", "quantifier": "all requested times, all prior states, all hardware windows", "why_tests_cant": "Ranges over all times/states.", "anchors": ["src/scheduler.c:schedule_output_event_safely", "src/scheduler.c:sched_entry_enable"]}
{"id": "C15", "title": "Every pulse that turns an output on is followed by its turn-off edge", "statement": "In every history of scheduling, descheduling, trigger and buffer-swap operations, whenever the start edge of a pulse has been submitted or fired, its stop edge is scheduled, submitted or fired; no output is left on without a pending turn-off.", "quantifier": "all histories, any interleaving", "why_tests_cant": "Safety property over unbounded histories (a coil or injector stuck on destroys hardware).", "anchors": ["src/scheduler.c", "src/platforms/common/stm32_sched_buffers.c"]}
{"id": "C16", "title": "The turn-off edge never precedes the turn-on edge", "statement": "For a freshly scheduled pulse the stop edge is later than the start edge. When an ignition pulse whose dwell has already been committed is rescheduled, the new stop time can land before the committed start time (refuted for ignition); fuel pulses keep the order because their requested width is preserved.", "quantifier": "all reschedules", "why_tests_cant": "Needs an adversarial reschedule at the exact moment the start is committed.", "anchors": ["src/scheduler.c:schedule_output_event_safely", "src/scheduler.c:schedule_ignition_event", "src/scheduler.c:schedule_fuel_event"]}
{"id": "C17", "title": "Rescheduling preserves fuel pulse width", "statement": "Whenever a fuel pulse whose start edge is already committed is rescheduled, its stop edge is set so that stop - start equals the requested pulse width (unless the stop can no longer be changed).", "quantifier": "all states and times", "why_tests_cant": "All states and times.", "anchors": ["src/scheduler.c:schedule_output_event_safely", "src/scheduler.c:schedule_fuel_event"]}
{"id": "C18", "title": "Ignition pulses have the commanded dwell and polarity", "statement": "An ignition output that is idle and is scheduled at a trigger gets a stop edge at the time of its angle minus advance after the reference trigger and a start edge exactly the commanded dwell before it; the start edge drives the pin to the active level (high unless inverted), the stop edge to the opposite level.", "quantifier": "all engine states, angles, dwell values", "why_tests_cant": "All engine states.", "anchors": ["src/scheduler.c:schedule_ignition_event"]}
{"id": "C19", "title": "No re-fire within a quarter turn and minimum coil rest", "statement": "A newly scheduled ignition pulse never starts within the configured minimum rest time after the previous stop edge of the same output, and an output whose pulse has fired is not scheduled again for a turn-off within 90 degrees of crank rotation. (Refuted when a pending pulse is rescheduled with a longer dwell: the rest is then measured against the wrong edge.)", "quantifier": "all states", "why_tests_cant": "All states.", "anchors": ["src/scheduler.c:schedule_ignition_event"]}
{"id": "C20", "title": "Each scheduled edge reaches the output hardware exactly once, in its own time slot", "statement": "With buffer swaps happening on time, an edge that is scheduled not before the earliest schedulable time is written into exactly one output buffer, in the slot for exactly its tick, before that buffer starts playing, and is marked fired only after that buffer has finished playing.", "quantifier": "all edge times, all swap sequences", "why_tests_cant": "Needs all phases of the double buffer and counter wrap.", "anchors": ["src/platforms/common/stm32_sched_buffers.c:stm32_buffer_swap", "src/platforms/common/stm32_sched_buffers.c:populate_output_buffer", "src/platforms/common/stm32_sched_buffers.c:retire_output_buffer", "src/platforms/common/stm32_sched_buffers.c:platform_output_earliest_schedulable_time"]}
{"id": "C21", "title": "Output buffers hold exactly the submitted edges", "statement": "At every moment the set/clear bits in the two DMA buffers are exactly those of the submitted edges of outputs on pins 0-15; retiring a buffer leaves no stale bit behind, so no pulse is ever repeated on the next lap - as long as pin and polarity of an output are not reconfigured while it is in flight (refuted otherwise).", "quantifier": "all histories of scheduling and swaps", "why_tests_cant": "Invariant over unbounded histories.", "anchors": ["src/platforms/common/stm32_sched_buffers.c:slot_set", "src/platforms/common/stm32_sched_buffers.c:slot_unset"]}
{"id": "C22", "title": "Simulator output windows agree with the embedded buffers", "statement": "The hosted platform submits each scheduled edge in the one window containing its time, applies the edges in time order, and reports for each tick the pin state after all edges of that tick.", "quantifier": "all windows and edge sets", "why_tests_cant": "All windows, orders.", "anchors": ["src/platforms/hosted.c:platform_buffer_swap", "src/platforms/hosted.c:do_output_slots"]}
{"id": "C23", "title": "Position is only reported valid while synchronised", "statement": "In every history of trigger pulses and timer expiries, the decoder reports a valid crank position only in its synchronised state; every loss of synchronisation (variation, too few/too many triggers between syncs, expiry, overflow) immediately clears validity, the RPM trigger count, and unscheduled pending outputs.", "quantifier": "all trigger histories and decoder types", "why_tests_cant": "History property.", "anchors": ["src/decoder.c:decode", "src/decoder.c:invalidate_decoder", "src/decoder.c:decoder_desync", "src/decoder.c:handle_decoder_expire", "src/decoder.c:decoder_update_scheduling"]}
{"id": "C24", "title": "Decoder bookkeeping stays in range", "statement": "In every trigger history, with a supported wheel configuration, the decoder never indexes outside its tooth-time history, the number of accumulated triggers never exceeds the history size, and the tooth counter never exceeds the wheel's tooth count while valid; some configurations accepted over the console (1 required trigger, window of 37 or more, zero triggers) violate this.", "quantifier": "all trigger histories, all configurations", "why_tests_cant": "All histories and configurations.", "anchors": ["src/decoder.c:push_time", "src/decoder.c:even_tooth_trigger_update_rpm", "src/decoder.c:missing_tooth_trigger_update", "src/decoder.h:MAX_TRIGGERS"]}
{"id": "C25", "title": "Missing-tooth wheel at constant speed synchronises and tracks the crank angle", "statement": "For every tooth count N, start phase and constant tooth period, a missing-tooth decoder without cam sync becomes valid at the first gap seen after the required number of teeth, and from then on its last trigger angle after k further teeth is k tooth-widths past the tooth after the gap, modulo 360 degrees; it never loses sync.", "quantifier": "all wheel sizes, phases, tooth periods and run lengths", "why_tests_cant": "Unbounded run lengths and all parameters.", "anchors": ["src/decoder.c:missing_tooth_trigger_update", "src/decoder.c:decode_missing_no_sync"]}
{"id": "C26", "title": "Even-tooth wheel with cam sync at steady speed synchronises and tracks the crank angle", "statement": "For every wheel size, phase and tooth period fast enough for the minimum RPM, with an averaging window of at least two teeth and shorter than the required number of teeth, the even-tooth+cam decoder becomes valid at the first cam pulse by which the required number of teeth has been seen, counts exactly the configured number of teeth between cam pulses without ever losing sync, and reports a trigger angle of (teeth since cam pulse) tooth-widths modulo 720 degrees, the average speed over the window, and an expiry after the next tooth. (Refuted: between the cam pulse that gains sync and the next tooth the reference time is stale; with a window of 0, the default, or 1 the decoder never becomes valid.)", "quantifier": "all wheel sizes, phases, tooth periods and run lengths", "why_tests_cant": "Over all periods and unbounded run lengths.", "anchors": ["src/decoder.c:decode_even_with_camsync", "src/decoder.c:even_tooth_trigger_update", "src/decoder.c:even_tooth_sync_update"]}
{"id": "C27", "title": "Even-tooth decoder detects extra and missing teeth", "statement": "While synchronised with cam sync, a cam pulse after a number of teeth different from the configured number makes the decoder lose sync, and more teeth than configured without a cam pulse make it lose sync; a correct count never does.", "quantifier": "all trigger histories", "why_tests_cant": "All histories.", "anchors": ["src/decoder.c:even_tooth_trigger_update", "src/decoder.c:even_tooth_sync_update"]}
{"id": "C28", "title": "Missing-tooth decoder detects a lost or extra tooth", "statement": "While synchronised, a tooth interval that is neither a normal nor a gap interval, a gap at the wrong tooth, or a normal interval where the gap is due makes the decoder lose sync; with a tolerance below 0.5 no interval counts as both.", "quantifier": "all trigger histories, tolerances, intervals", "why_tests_cant": "All float ratios.", "anchors": ["src/decoder.c:missing_tooth_trigger_update"]}
{"id": "C29", "title": "Engine stall is detected", "statement": "After every tooth processed while synchronised an expiry is pending at a time after that tooth, and if no further trigger arrives the decoder becomes invalid at that expiry and all unsubmitted outputs are cancelled. (The missing-tooth decoder does not arm the expiry at the very tooth where it gains sync: refuted there.)", "quantifier": "all trigger histories", "why_tests_cant": "Liveness over histories.", "anchors": ["src/decoder.c:set_expire_event", "src/decoder.c:handle_decoder_expire"]}
{"id": "C30", "title": "Estimated crank angle is consistent with the last tooth", "statement": "The estimated crank angle is always in [0,720); with zero RPM it is the last tooth's angle, and it never decreases relative to the last tooth as time passes before the next tooth.", "quantifier": "all decoder states and times", "why_tests_cant": "All floats.", "anchors": ["src/decoder.c:current_angle"]}
{"id": "C31", "title": "Rev limiter hysteresis", "statement": "Over any history of RPM samples the rev cut is active exactly when the RPM has reached the stop limit and has not been below the start limit then or since.", "quantifier": "all RPM histories and limits", "why_tests_cant": "History property.", "anchors": ["src/calculations.c:rpm_cut"]}
{"id": "C32", "title": "Cuts stop new pulses", "statement": "Whenever the rev limit, overboost or injector over-duty condition holds (or the position is invalid) at a trigger, after processing that trigger no ignition and no fuel start edge is in the scheduled state; submitted ones may still complete.", "quantifier": "all engine states", "why_tests_cant": "All states.", "anchors": ["src/calculations.c:ignition_cut", "src/calculations.c:fuel_cut", "src/scheduler.c:schedule_event", "src/decoder.c:decoder_update_scheduling"]}
{"id": "C33", "title": "Tip-in enrichment holds and expires", "statement": "Over any history of throttle rates and times the enrichment amount in effect is never replaced by a smaller one before its duration has elapsed, equals the amount table's current value once it has elapsed, and is always a value the amount table produced at that or an earlier sample; this holds as long as samples are less than half a turn of the tick counter apart, and fails otherwise (an expired enrichment comes back after a full turn).", "quantifier": "all histories of samples", "why_tests_cant": "History property.", "anchors": ["src/calculations.c:calculate_tipin_enrichment"]}
{"id": "C34", "title": "Fuelling computation is free of undefined behaviour on sane inputs", "statement": "For sensor readings and configuration in stated ranges (which include the default configuration), over any history of calls the ignition, fuelling and cut computations divide by no zero, convert no out-of-range float and read outside no table, and the pulse is bounded; they have undefined behaviour for zero injections per cycle, zero lambda, zero RPM and negative pulses, none of which the configuration check rejects.", "quantifier": "all inputs in range", "why_tests_cant": "All floats.", "anchors": ["src/calculations.c:calculate_fueling", "src/calculations.c:fuel_overduty"]}
{"id": "C35", "title": "Linear sensor conversion is monotone and exact at its end points", "statement": "A linear sensor maps its raw minimum exactly to the range minimum, is monotone in the raw input, stays between the values of its end points for readings between them, and returns 0 for a degenerate raw range. The raw maximum maps exactly to the range maximum if the range minimum is 0 (refuted otherwise: the last bit can differ).", "quantifier": "all raw values and configurations", "why_tests_cant": "All floats.", "anchors": ["src/sensors.c:sensor_convert_linear"]}
{"id": "C36", "title": "Sensor faults substitute the configured value", "statement": "A reading whose raw value is outside the fault bounds yields exactly the configured fault value, unfiltered, with derivative 0, and the fault status bitmask reports exactly the sensors whose input is flagged faulty; out-of-bounds readings are not flagged (only connection faults are).", "quantifier": "all readings and configurations", "why_tests_cant": "All combinations.", "anchors": ["src/sensors.c:detect_faults", "src/sensors.c:sensor_convert", "src/sensors.c:sensor_fault_status"]}
{"id": "C37", "title": "Lag filter stays between old and new value", "statement": "The lag filter with coefficient 0 passes the new reading unchanged, for coefficients up to 100 yields the weighted mean, between the old and the new reading, up to rounding, and with a coefficient up to 99 a constant reading is reached. (Refuted: coefficient 100 does not keep every old reading exactly.)", "quantifier": "all floats", "why_tests_cant": "All floats.", "anchors": ["src/sensors.c:process_lag_filter"]}
{"id": "C38", "title": "Windowed averaging uses only samples from the window", "statement": "Over any sequence of samples and crank angles, the value produced by a windowed sensor at the end of a window is computed from exactly the samples whose crank angle was inside the capture window, and at every other sample the previous value is held. (With a total window width of 0 the conversion hangs.)", "quantifier": "all sample sequences", "why_tests_cant": "History property.", "anchors": ["src/sensors.c:sensor_convert_linear_windowed", "src/sensors.c:current_angle_in_window"]}
{"id": "C39", "title": "Fuel pump runs only while priming or when the engine turned recently", "statement": "Between power-on and one counter period after the last recorded tooth, the fuel pump is on at a task run exactly if a tooth was recorded in the last second, or less than 4 s have passed since a run that found one or since power-on; so it is off 5 s after the engine stops. (Refuted beyond: it restarts for a second about 18 minutes after the last tooth, when the counter has wrapped; and teeth are recorded only while the position is known, so that the pump stops during cranking without sync.)", "quantifier": "all task and trigger histories", "why_tests_cant": "Needs runs of more than 2^32 ticks.", "anchors": ["src/tasks.c:handle_fuel_pump"]}
{"id": "C40", "title": "Check engine light shows the highest priority condition and holds it", "statement": "Over any history of task runs, the light shows at least the highest priority condition present (lean under boost, then loss of position while turning, then sensor fault), a newly raised condition or a higher one is shown for 3 s, what is shown was present within the last 3 s, the light blinks counting from then, and it is off if there was no condition for 3 s. (Refuted: a condition is not shown for 3 s after it was last present.)", "quantifier": "all histories", "why_tests_cant": "History property.", "anchors": ["src/tasks.c:determine_next_cel_state", "src/tasks.c:handle_check_engine_light"]}
{"id": "C41", "title": "Boost control output follows its decision table", "statement": "The boost solenoid duty commanded at each task run is 0 below the enable threshold, full between thresholds when the throttle threshold is met, else the table duty; with table entries between 0 and 100 it stays in that range at every speed and the timer's compare value is within a part in 60000 of it. (Refuted for other entries on the gd32, which does not clamp: undefined conversion.)", "quantifier": "all sensor values", "why_tests_cant": "All floats including NaN.", "anchors": ["src/tasks.c:handle_boost_control"]}
{"id": "C42", "title": "Emergency shutdown turns everything off", "statement": "After an emergency shutdown in any reachable state the fuel pump output is off, every fuel output is driven to its inactive level and no turn-on edge waits to be submitted. (Refuted beyond: ignition outputs keep their level, the position stays valid, and turn-on edges already in the output buffers stay there.)", "quantifier": "all states", "why_tests_cant": "All states.", "anchors": ["src/tasks.c:handle_emergency_shutdown"]}
{"id": "C43", "title": "The event log is a loss-aware FIFO", "statement": "For every interleaving of producer and consumer the host receives the events that happened while logging was enabled in the order they happened, each at most once, with strictly increasing sequence numbers; sequence gaps count exactly the events dropped because 31 events were pending, and a pending event is delivered by the next read.", "quantifier": "all interleavings and histories", "why_tests_cant": "Concurrent ring buffer over unbounded histories.", "anchors": ["src/console.c:console_record_event", "src/console.c:get_logged_event"]}
{"id": "C44", "title": "Request framing is memory safe and resynchronises", "statement": "For every byte stream and chunking the receive buffer never overflows, a request is only processed when it begins with a map and is complete, bytes before it are discarded, and a buffer holding an incomplete message is abandoned after 5 s or when full so that communication cannot wedge.", "quantifier": "all byte streams, chunkings and timings", "why_tests_cant": "All byte streams.", "anchors": ["src/console.c:console_try_read", "src/console.c:console_shift_rx_buffer", "src/console.c:console_process"]}
{"id": "C45", "title": "GET never changes the configuration", "statement": "Processing any get request, with any path, leaves the whole configuration unchanged.", "quantifier": "all requests, all configurations", "why_tests_cant": "All paths and configurations.", "anchors": ["src/console.c:console_request_get", "src/console.c:render_float_object", "src/console.c:render_uint32_object"]}
{"id": "C46", "title": "SET only changes what its path designates", "statement": "A set request changes no setting other than those its path and value speak about: the path leads to the setting (or runs past it), or leads to a group and the value has an entry leading to it. A path that leads nowhere changes nothing. (The stricter reading, that only settings below the path change, is refuted: an array sent to an element of a table axis resizes the axis.)", "quantifier": "all requests, all configurations", "why_tests_cant": "All paths and values.", "anchors": ["src/console.c:console_request_set", "src/console.c:descend_map_field", "src/console.c:descend_array_field", "src/console.c:render_table_axis_values"]}
{"id": "C47", "title": "SET followed by GET returns what was set", "statement": "After setting a leaf to a value of its type, getting the same path returns that value; a value of the wrong type leaves the leaf unchanged, and the set response equals the subsequent get response. Unsigned settings of 2^31 and above are not accepted.", "quantifier": "all leaves and values", "why_tests_cant": "All values.", "anchors": ["src/console.c:render_uint32_object", "src/console.c:render_float_object", "src/console.c:render_bool_object", "src/console.c:render_enum_object"]}
{"id": "C48", "title": "Table resizing over the console stays within storage", "statement": "No sequence of console requests can make a table axis longer than 24 entries or make the console read or write outside a table's storage.", "quantifier": "all request sequences", "why_tests_cant": "History property.", "anchors": ["src/console.c:render_table_axis_values", "src/console.c:render_table_2d_data", "src/console.c:render_table_1d_data"]}
{"id": "C49", "title": "Every request gets one response carrying its id and a success flag", "statement": "The response to a request with a known method is a well-formed map of type response whose id equals the request's integer id (-1 if absent) and which carries a success field exactly once. (Refuted without a known method: a request without method gets it twice, another method with path and value gets none; and a response longer than the 16384-byte buffer is never sent.)", "quantifier": "all requests", "why_tests_cant": "All request maps.", "anchors": ["src/console.c:console_process_request"]}
{"id": "C50", "title": "Simultaneous trigger captures are processed in time order", "statement": "When both trigger inputs have captured an edge by the time the interrupt runs, they are passed to the decoder in the order of their capture times, across counter wrap.", "quantifier": "all capture time pairs within half a period", "why_tests_cant": "All times.", "anchors": ["src/platforms/gd32f4/gd32f4_sched.c:TIMER1_IRQHandler", "src/platforms/stm32f4-discovery.c:tim2_isr"]}
{"id": "C51", "title": "ADC results are attributed to the channel that was sampled", "statement": "For each supported external ADC, the value reported for a pin is the conversion result of the command that selected that pin (responses are delayed by one transfer).", "quantifier": "all response streams, all pins", "why_tests_cant": "All sample values.", "anchors": ["src/platforms/common/tlv2553_adc.h", "src/platforms/common/ad7888_adc.h", "src/platforms/common/max11632_adc.h"]}
{"id": "C52", "title": "Saving the configuration erases every flash sector it programs", "statement": "For configuration images up to the sector layout size, the number of erased sectors covers the number of programmed bytes. (Refuted for larger images because of a 16386 rounding constant.)", "quantifier": "all image sizes", "why_tests_cant": "All sizes.", "anchors": ["src/platforms/stm32f4-discovery.c:platform_save_config"]}
{"id": "C53", "title": "The built-in test wheel drives the decoder to sync", "statement": "Whatever speeds are set and whenever, the built-in trigger simulator configured for a 36-tooth wheel delivers exactly the crank and cam pulses of that wheel, in order and forever, spaced by the time the engine takes at the set speed; at every speed from 4 to 100000 RPM the default decoder gains its position from them within two turns and never loses it. For every other configured tooth count the simulated wheel is not the configured one.", "quantifier": "all run lengths", "why_tests_cant": "Unbounded run.", "anchors": ["src/sim.c:execute_test_trigger"]}
{"id": "C54", "title": "No pulse starts while the engine position is unknown", "statement": "In every execution of the whole firmware model (triggers, timer interrupts, buffer swaps, sensor updates, tasks), whenever the decoder is not valid no output start edge is waiting to be submitted, provided the console does not disable an output whose start edge is waiting (then the stale pulse survives the loss of position).", "quantifier": "all executions of the system", "why_tests_cant": "Whole-system invariant under interleaving.", "anchors": ["src/decoder.c:decoder_update_scheduling", "src/scheduler.c:schedule_event", "src/decoder.c:handle_decoder_expire"]}
{"id": "C55", "title": "The timer interrupt never finds an empty callback list", "statement": "The event timer interrupt is taken only while a callback is pending. (Refuted: nothing disarms the compare channel after the last callback has run, so the same compare value matches again one counter period later, and on the hosted platform on the next step when the deadline is a multiple of 128; the handler then indexes the table at -1, or fails its assertion.)", "quantifier": "all histories that end with no callback pending", "why_tests_cant": "Needs an 18-minute idle period at an exact tick, or an exact residue of a deadline.", "anchors": ["src/scheduler.c:scheduler_callback_timer_execute", "src/platforms/gd32f4/gd32f4_sched.c:schedule_event_timer", "src/platforms/hosted.c:schedule_event_timer"]}
{"id": "C56", "title": "A zero-length pulse does not leave an output on", "statement": "A pulse planned with equal turn-on and turn-off times leaves the pin at its inactive level. (Refuted for non-inverted outputs: both bits land in the same slot, the hardware gives the set bit priority, and the pin stays on for ever after; dwell 0 and pulse width 0 produce such pulses.)", "quantifier": "all histories, all later ticks", "why_tests_cant": "Depends on the hardware's bit priority and on all later history.", "anchors": ["src/platforms/common/stm32_sched_buffers.c:slot_set", "src/scheduler.c:schedule_ignition_event"]}
{"id": "C57", "title": "The pin shows exactly the planned waveform", "statement": "Once a pulse with turn-on ton and turn-off toff is planned for an output that has its pin to itself, and it is neither rescheduled nor cancelled, the pin is at the active level at exactly the ticks in [ton, toff) and inactive at every other tick played until then, whatever is done to all other outputs meanwhile.", "quantifier": "all histories of scheduling, cancelling and buffer swaps; all ticks", "why_tests_cant": "All interleavings and all later ticks.", "anchors": ["src/scheduler.c:schedule_output_event_safely", "src/platforms/common/stm32_sched_buffers.c:stm32_buffer_swap"]}
{"id": "C58", "title": "Angle and time conversions are accurate and monotone", "statement": "For every engine speed from 1 to 2^24 RPM the time computed for an angle in [0,720] is within one tick plus 2^-22 relative of the exact time and is monotone in the angle, without undefined behaviour; the angle computed for any elapsed time is within 6*2^-24 relative of the exact angle.", "quantifier": "all speeds, angles and times", "why_tests_cant": "All floats and all 32-bit times.", "anchors": ["src/util.c:time_from_rpm_diff", "src/util.c:degrees_from_time_diff"]}
{"id": "C59", "title": "The position reference belongs to the most recent tooth", "statement": "Whenever the position is valid, the reference time used for scheduling and angle estimation is the time of the most recent crank tooth. (Holds for every tooth that keeps the position valid, and for the tooth that makes it valid on an even wheel without cam. Refuted at the tooth or cam pulse at which the missing-tooth and cam-synchronised decoders gain sync: the reference is left from before.)", "quantifier": "all trigger histories, all wheels", "why_tests_cant": "Over all histories; the stale reference is used for one tooth only.", "anchors": ["src/decoder.c:missing_tooth_trigger_update", "src/decoder.c:even_tooth_trigger_update", "src/decoder.c:even_tooth_sync_update"]}
{"id": "C60", "title": "Rescheduling never pushes a pending pulse back by more than half a turn", "statement": "When an output whose turn-off is pending is scheduled again, its turn-off is moved later by at most half a turn at the current speed (a fuel pulse whose turn-on can no longer move only takes the new width); a request further away leaves the pending pulse as it is.", "quantifier": "all outputs, decoder states, advances, pulse widths", "why_tests_cant": "Depends on wrapped times and float conversions of every state.", "anchors": ["src/scheduler.c:schedule_ignition_event", "src/scheduler.c:schedule_fuel_event"]}
{"id": "C61", "title": "Even-tooth decoders reject a tooth whose speed is out of tolerance and accept one within", "statement": "While the position is valid on an even-tooth wheel, a tooth whose speed (from the last tooth interval) is not above the minimum RPM, or differs from the average speed over the configured window by more than the configured fraction, makes the position invalid with reason 'variation' and cancels the outputs; a tooth above the minimum and within the fraction keeps it valid (unless it is one tooth too many).", "quantifier": "all trigger histories, wheels, tooth intervals and tolerances", "why_tests_cant": "Float comparisons over all intervals and tolerances.", "anchors": ["src/decoder.c:even_tooth_trigger_update_rpm"]}
{"id": "C62", "title": "The knock level is the level of the last complete block of samples", "statement": "However the knock samples are divided over updates, the reported knock level is computed from exactly the last complete block of 64 consecutive samples, independently of earlier blocks; in exact arithmetic it is the power of the tuned frequency in that block.", "quantifier": "all sample streams and their divisions into updates", "why_tests_cant": "All streams; equality of a recurrence with a spectral sum.", "anchors": ["src/sensors.c:knock_add_sample", "src/sensors.c:sensor_update_knock"]}
{"id": "C63", "title": "The knock filter is tuned to the configured frequency", "statement": "The knock filter is tuned to the analysable frequency (multiple of the sample rate / 64) nearest to the configured one. (Refuted for every sample rate and every frequency that is itself analysable: it is tuned to the next higher one. What holds: for every frequency from 0 to 1 MHz the filter is tuned above the configured frequency by at most one bucket.)", "quantifier": "all sample rates and frequencies", "why_tests_cant": "All rates and frequencies.", "anchors": ["src/sensors.c:knock_configure"]}
{"id": "C64", "title": "No console request makes the firmware execute undefined behaviour", "statement": "Every request is served without undefined behaviour. (Refuted: setting a knock input to a negative frequency converts a negative float to unsigned. What holds: any sequence of requests that do not write a knock frequency is served without undefined behaviour, and setting a knock frequency to a finite value from 0 to 1 MHz keeps it so.)", "quantifier": "all requests, all configurations", "why_tests_cant": "All request contents.", "anchors": ["src/console.c:render_knock_object", "src/sensors.c:knock_configure"]}
{"id": "C65", "title": "Every sensor takes the reading of its own input", "statement": "After an update, a sensor fed by the analogue inputs holds the reading of the pin it is configured for and the time of that update, and nothing read on another pin changes it; a frequency or pulse width sensor takes the frequency or the pulse width of the updates for its pin only; sensors with another source are not touched.", "quantifier": "all sensor configurations, all sensor states, all updates (any values, valid or not)", "why_tests_cant": "Attribution must hold for every assignment of pins and sources and every reading, and no test covers all combinations.", "anchors": ["src/sensors.c: sensor_update_adc, sensor_update_freq, sensor_convert"]}
{"id": "C66", "title": "The derivative of a sensor is its change per second", "statement": "When a reading is accepted, the derivative of the sensor is the difference between its new and its old value divided by the sampling period, up to float rounding. It is not so for frequency sensors, whose updates do not come at the sampling rate.", "quantifier": "all accepted readings, configurations, finite values and sampling rates up to 1 MHz", "why_tests_cant": "The rounding error must be bounded for all floats.", "anchors": ["src/sensors.c: process_derivative, sensor_convert"]}
{"id": "C67", "title": "Thermistor readings are converted by the Steinhart-Hart formula", "statement": "The resistance is that of the lower half of a divider with the configured bias resistor, and the temperature is 1/(A + B ln R + C (ln R)^3) - 273.15, to within a few thousandths of a degree; a higher reading never gives a higher temperature.", "quantifier": "all readings, bias resistors and (non-negative) coefficients, with any increasing logarithm", "why_tests_cant": "Monotonicity and accuracy over all floats cannot be sampled.", "anchors": ["src/sensors.c: sensor_convert_thermistor"]}
{"id": "C68", "title": "Under the whole firmware no planned edge is missed and every committed edge is played", "statement": "In every execution of the whole firmware from power-on with on-time buffer swap interrupts at any points inside it: every planned edge lies in a block of output that has not been filled yet; every edge handed to the hardware belongs to the playing or the next block and nothing the firmware does afterwards (further triggers, callbacks, loss of position, shutdown) changes it before its block has been played; the bit of its pin is in the slot of its own tick; and no other bit is in the output buffers.", "quantifier": "all executions of the firmware (any triggers, timer interrupts, lost captures, sensor values, test triggers, shutdown; swaps at every possible point), all configurations, any length", "why_tests_cant": "The interleaving of interrupts and the wrap of the tick counter cannot be enumerated.", "anchors": ["src/scheduler.c", "src/decoder.c: decoder_update_scheduling", "src/platforms/common/stm32_sched_buffers.c"]}
{"id": "C69", "title": "The end-of-injection callback is armed for the turn-off of the injection", "statement": "Planning an output changes no callback but its own, only fuel outputs have one, and it is armed exactly for the turn-off time of the injection just planned: never for a moment already past, and always when the call moved the turn-off and it is still planned and ahead.", "quantifier": "all states reachable by the firmware, all outputs, all clock readings", "why_tests_cant": "All states and interleavings.", "anchors": ["src/scheduler.c: schedule_fuel_event, schedule_event"]}
{"id": "C70", "title": "USB packets are received without loss or overflow", "statement": "On the gd32f4 platform, whatever packets the host sends and whenever the console is polled, reading from the USB endpoint never stores more bytes than the console's buffer has room for, and the bytes returned are exactly those of the packets accepted, in order. This holds as long as no packet arrives inside the read function itself; a packet arriving between its test for pending data and the re-arming of the endpoint can be overwritten by the next packet, and can let a packet be copied past the end of the console's 16384-byte buffer.", "quantifier": "all packets of at most 64 bytes, all interleavings of packets and polls, all fill levels of the console's buffer", "why_tests_cant": "The race is a few instructions wide and needs a host that sends at that moment; unit tests replace the USB layer.", "anchors": ["src/platforms/gd32f4/gd32f4_usb.c: console_read, cdc_acm_out", "src/console.c: console_try_read"]}
{"id": "C71", "title": "Messages are sent whole", "statement": "Whatever part of the offered bytes the platform's write function accepts at each call (including none), when the sender returns exactly the bytes of the message have been sent, in order, and it returns once the platform has accepted something often enough.", "quantifier": "all messages, all sequences of partial writes", "why_tests_cant": "Tests use a write function that accepts everything at once.", "anchors": ["src/console.c: console_write_full"]}
{"id": "C72", "title": "No trigger edge is lost without notice", "statement": "If two edges arrive on a trigger input before the interrupt handler reads the first, so that the hardware can keep only one of them, the decoder is told to give up its synchronisation. On the stm32f4 this holds for every run of the handler during which no edge arrives between two of its register accesses; an edge that arrives between the reading of the capture and the clearing of its flag is lost without notice. On the gd32f4 the handler never looks at the overcapture flags, so the loss is never noticed.", "quantifier": "all sequences of edges on all inputs, all placements of the interrupt handler among them", "why_tests_cant": "Needs edges closer than the interrupt latency; the platform code is not built in unit tests.", "anchors": ["src/platforms/gd32f4/gd32f4_sched.c: TIMER1_IRQHandler", "src/platforms/stm32f4-discovery.c: tim2_isr"]}
{"id": "C73", "title": "An input captures exactly the edges it is configured for", "statement": "Whatever the configured edge of each trigger input (rising, falling, both), the timer captures exactly those edges on that input and no other, and the setting of one input does not affect another; an input that is disabled causes no captures. Refuted: on the gd32f4 input 1 configured for both edges captures only rising ones and the setting spills over to input 2; on the stm32f4 a disabled input still captures and its pulses desynchronise the decoder.", "quantifier": "all configurations of the inputs, all level changes on all inputs", "why_tests_cant": "Register programming is not executed in unit tests.", "anchors": ["src/platforms/gd32f4/gd32f4_sched.c: configure_trigger_inputs", "src/platforms/stm32f4-discovery.c: platform_setup_tim2"]}
{"id": "C74", "title": "A power failure while saving the configuration", "statement": "At whatever step of saving the configuration to flash the power fails, the flash that holds the program is unchanged, so the device still starts. The configuration itself is not protected: a failure between the erasing and the last programmed word leaves a configuration that is neither the old nor the new one, and it is loaded at the next start.", "quantifier": "all old and new configurations, every step at which power can fail", "why_tests_cant": "Crash points inside flash programming cannot be exercised by unit tests.", "anchors": ["src/platforms/stm32f4-discovery.c: platform_save_config, platform_load_config", "src/platforms/gd32f4/gd32f4_init.c: platform_save_config"]}
{"id": "C75", "title": "A missing-tooth wheel with cam sync gives the absolute position", "statement": "With a missing-tooth wheel and a cam pulse every second turn, turning steadily within the configured tolerance, the position becomes valid at the first cam pulse after the first gap and never becomes invalid again, no output is cancelled, the angle counts 720 degrees from the first tooth of the turn that holds the cam pulse (exactly, for tooth widths that are multiples of 1/8192 degree, and then independently of where the wheel stood at power-on), the speed is right and the armed expiry never comes before the next tooth.", "quantifier": "all tooth counts, starting positions, cam positions, steady tooth timings within the tolerance, run lengths", "why_tests_cant": "Unbounded runs, all starting positions and timings.", "anchors": ["src/decoder.c: decode_missing_with_camsync, missing_tooth_trigger_update"]}
{"id": "C76", "title": "A lost or an extra cam pulse is noticed", "statement": "With a missing-tooth wheel and cam sync: when the cam pulses stop, the position is given up and the outputs are cancelled at the first tooth of the third turn after the turn of the last one, and not before; when an extra cam pulse comes in the turn of a proper one or in the next, the position is given up and the outputs are cancelled at once.", "quantifier": "all tooth counts, wheel positions, timings within the tolerance and points of failure", "why_tests_cant": "The failure can come at any point of an unbounded run.", "anchors": ["src/decoder.c: decode_missing_with_camsync, missing_tooth_trigger_update"]}
{"id": "C77", "title": "The spark comes, and the injection ends, at the commanded crank angle", "statement": "With a missing-tooth or an even-tooth wheel and cam sync that turns at a constant speed, and a decoder that has its position, the end of every pulse that is planned or moved after a tooth is at the moment at which the real crank is at the output's angle (for a coil, less the advance) from the decoder's zero (the first tooth of the turn with the cam pulse, or the tooth with the cam pulse), shifted by the configured offset; the error is at most 1/400 degree, three timer ticks and the share of the angle still to turn that comes from measuring one tooth in whole ticks and whole RPM. An idle output gets the whole pulse if there is time, a pending one is moved whole.", "quantifier": "all wheels with a tooth width that is a multiple of 1/8192 degree, speeds from 20 to 1000000 RPM, tooth timings within a tick, starting positions, teeth, output angles, advances, pulse lengths and earlier pulses", "why_tests_cant": "Composes decoder, float arithmetic and scheduler over runs of any length and all configurations.", "anchors": ["src/scheduler.c: schedule_ignition_event, schedule_fuel_event, schedule_output_event_safely", "src/decoder.c: decode_missing_with_camsync, missing_tooth_trigger_update, decode_even_with_camsync, even_tooth_trigger_update", "src/util.c: clamp_angle, time_from_rpm_diff, rpm_from_time_diff"]}
{"id": "C78", "title": "Frequency inputs report the frequency and pulse width of the signal", "statement": "Each update of the free-running frequency input carries the time of the last edge its handler saw and 4 MHz over its distance from the one seen before, to one part in two million, also across the wrap of the timer; a handler that runs between any two edges sees all of them. The frequency and pulse width input reports valid values, the frequency 0.04 to 0.05 % high and at most one count of the period off, the pulse width at most 0.05 % and one count low, for every signal with a period up to 1.0005 s. When that signal stops, its sensors go to their fault values after 1.0005 s and not before. The free-running input never notices that its signal stopped.", "quantifier": "all sequences of edges and handler runs, all periods and pulse widths, all sensor configurations", "why_tests_cant": "Interleavings of edges and handler of any length, all 32-bit timer values, rounding of every division.", "anchors": ["src/platforms/gd32f4/gd32f4_sched.c: TIMER1_IRQHandler, tim1_ch2_freq", "src/platforms/gd32f4/gd32f4_sensors.c: TIMER0_BRK_TIMER8_IRQHandler", "src/sensors.c: sensor_update_freq"]}
{"id": "C79", "title": "The injection is the amount of fuel the configuration asks for", "statement": "With configuration and readings in range, after any history of calls, the computed air mass is the cylinder's volume at the table's volumetric efficiency, the manifold pressure and the density of air at its temperature; the fuel volume is that mass over stoichiometric ratio, commanded lambda and the density of fuel at its temperature; the injection time is the time the injector needs for it and the tip-in amount, per injection, times the warm-up (or cranking) enrichment, plus the pulse width correction and the dead time; each to five parts in a million and one microsecond. The table values are those at the current speed, pressure, voltage and temperature.", "quantifier": "all configurations and readings in stated ranges, all histories of calls", "why_tests_cant": "All floats; accumulated rounding of some twenty operations.", "anchors": ["src/calculations.c: calculate_fueling, calculate_airmass, air_density, fuel_density, calculate_fuel_volume"]}
{"id": "C80", "title": "Advance and dwell are the configured ones", "statement": "With configuration and readings in range, the advance is the timing table's value at the current speed and pressure, and the dwell is the configured time, the table's for the battery voltage or that of an eighth of a turn at the current speed, to 1.25 microseconds and one part in four million; nothing else is changed.", "quantifier": "all configurations and readings in stated ranges", "why_tests_cant": "All floats and speeds.", "anchors": ["src/calculations.c: calculate_ignition"]}
{"id": "C81", "title": "Cuts act when a limit is exceeded and only then", "statement": "After any history of calls in range, ignition and fuel are cut when the rev limiter is active, when the manifold pressure is above the overboost limit, or when the injection is longer than its share of the cycle, and only then, with a margin of one part in a million and a microsecond for the last; the decision changes nothing but the three cut flags.", "quantifier": "all histories, configurations, speeds and readings in stated ranges", "why_tests_cant": "All floats, speeds and histories.", "anchors": ["src/calculations.c: ignition_cut, fuel_cut, fuel_overduty, boost_cut, rpm_cut"]}
{"id": "C82", "title": "What the host receives is a sequence of self-delimiting CBOR messages with one meaning", "statement": "The bytes the device sends, for any sequence of console calls with any requests, events and engine states, are the concatenation of complete CBOR items; each fits the 16 KiB buffer, is a map whose first entry is its type (response, event, description or feed) and decodes to exactly the integers, floats and strings the firmware put in. No other sequence of items has those bytes, so a receiver that starts on a message boundary stays in step and reads each value bit for bit.", "quantifier": "every sequence of calls, request, list of logged events, state of settings and sensors, 32-bit value, binary32 value and string", "why_tests_cant": "A test decodes a few messages; the claim is about every value of every field, including the boundaries of the CBOR integer encodings, NaN and infinities, and about ambiguity of the whole stream.", "anchors": ["src/console.c: console_process, console_event_message, console_feed_line, console_feed_line_keys, console_process_request_raw", "INTERFACE.md", "tinycbor encoder (contract)"]}
{"id": "C83", "title": "The feed, its description and the events say what the host thinks they say", "statement": "Every description lists the same distinct names; every feed message has as many values as there are names, and the value at each place is the current value of the quantity with that name. Event messages carry recorded events unchanged and in order with increasing numbers, a number missing only if the log was full. Each call ends with exactly one of feed or description, a description exactly when more than 100 ms have passed since the last; if calls are less than 0.9 s apart the list of fields is sent at least once per second, across the wrap of the clock.", "quantifier": "every state at every read, every schedule of event recording against reading, every sequence of call times", "why_tests_cant": "The pairing of 36 names and values holds by position only and the values change while they are read; timing wraps every 18 minutes and the log fills only under particular interleavings.", "anchors": ["src/console.c: console_feed_line, console_feed_line_keys, console_event_message, console_process, console_record_event, get_logged_event", "INTERFACE.md"]}
{"id": "C84", "title": "A running engine gets exactly one spark per cycle from each coil, at its angle and with its dwell", "statement": "While the crank turns at a constant speed and the decoder has its position, and advance and dwell are constant, the pin of an ignition output is written exactly one pulse per engine cycle of 720 degrees, for as long as the engine runs: no cycle is skipped from the first pulse on (which is for one of the first three sparks due), none is doubled, the pulse ends when the crank is at the output's angle less the advance, up to a stated part of a degree, and is as long as the commanded dwell up to a stated number of ticks. This holds although each pulse is planned up to a cycle ahead from a rounded speed, re-planned after every tooth and cam pulse, and handed to the hardware in pieces of 128 ticks by an interrupt that comes at any moment. No step fails.", "quantifier": "all wheels of the two cam-sync kinds, constant speeds, angles, advances, dwells, rests and latencies in a stated regime; all interleavings of the calls, the swap interrupt and the work on the other outputs; runs of any length", "why_tests_cant": "A test follows one output through one or two cycles with one interleaving; a plan that is moved, dropped or recycled at the wrong moment loses or doubles a spark only for particular combinations of speed, tooth and swap times, possibly after hours.", "anchors": ["src/scheduler.c: schedule_ignition_event, schedule_output_event_safely, schedule_output_event", "src/decoder.c: decoder_update_scheduling", "src/platforms/common/stm32_sched_buffers.c: stm32_buffer_swap", "src/util.c: clamp_angle, time_from_rpm_diff, time_from_us"]}
{"id": "C85", "title": "A running engine gets exactly one injection per cycle from each injector, ending at its angle and exactly as long as commanded", "statement": "Under the conditions of C84 (constant speed, decoder with its position, constant pulse width) the pin of a fuel output is written exactly one pulse per engine cycle of 720 degrees for as long as the engine runs: none skipped from the first on, none doubled. Each ends when the crank is at the output's angle up to a stated part of a degree, and each is exactly as long as the commanded pulse width, to the tick, although its edges are re-planned after every tooth, every cam pulse and every end of an injection, one of them possibly after the other is already final or played. No step fails.", "quantifier": "all wheels of the two cam-sync kinds, constant speeds, angles, pulse widths and latencies in a stated regime; all interleavings of the calls (any number per tooth), the swap interrupt and the work on the other outputs; runs of any length", "why_tests_cant": "The amount of fuel is the length of the pulse; it changes only if a call comes between the two edges becoming final, at one of few ticks per cycle, which a test of single calls does not reach.", "anchors": ["src/scheduler.c: schedule_fuel_event, schedule_output_event_safely, schedule_event", "src/decoder.c: decoder_update_scheduling", "src/platforms/common/stm32_sched_buffers.c: stm32_buffer_swap", "src/util.c: clamp_angle, time_from_rpm_diff"]}
{"id": "C86", "title": "The periodic tasks together drive the pump, the boost valve and the check engine light, and nothing else", "statement": "However often and at whatever times the tasks have run since power-on, with any sensor readings and any wrap of the clock, every run works and after the last one the pump's pin is on exactly if the engine is turning or was (or power came on) less than 4 s ago; the boost valve got the duty cycle for the pressure, throttle and speed found, and no other PWM channel any; the check engine light shows, in its rhythm, a condition found at most 3 s ago that is at least as bad as the present one; no other pin has changed. No task disturbs the memory or the pin of another.", "quantifier": "all histories of runs, readings, configurations with a usable boost table and distinct pins", "why_tests_cant": "Each task has memory from one run to the next; the claim is about all of them in any history, with readings that change between two tasks of one run.", "anchors": ["src/tasks.c: run_tasks, handle_fuel_pump, handle_boost_control, handle_check_engine_light"]}
{"id": "C87", "title": "An engine that speeds up and slows down still gets exactly one spark and one injection per cycle", "statement": "As C84 and C85, but the speed changes while the engine runs: from a cycle before any moment to a cycle after it the time per tooth stays within a part delta of some value, and over the life of the engine these values may be anything in a stated range. Each ignition output's pin is still written exactly one pulse per engine cycle, each fuel output's exactly one as long as commanded to the tick. Each ends within a stated number of ticks of the moment the crank really is at the output's angle; what is lost to the change of the speed is 4 delta times the time from the last adjustment to the pulse. No step fails.", "quantifier": "all wheels of the two cam-sync kinds, all motions of the crank with such speeds, all angles, advances, dwells, pulse widths, rests and latencies in a stated regime; all interleavings as in C84; runs of any length", "why_tests_cant": "The plan for a spark is made from the speed at one tooth and moved at every further tooth, forwards or backwards as the speed changes; that no change loses or doubles a pulse depends on all motions of the crank, not on the few speeds of a test.", "anchors": ["src/scheduler.c: schedule_ignition_event, schedule_fuel_event, schedule_output_event_safely", "src/decoder.c: decoder_update_scheduling, missing_tooth_trigger_update, even_tooth_trigger_update", "src/platforms/common/stm32_sched_buffers.c: stm32_buffer_swap", "src/util.c: clamp_angle, time_from_rpm_diff"]}
{"id": "C88", "title": "Each cycle's spark and injection obey the commands of that cycle while advance, dwell and pulse width change with every call", "statement": "As C87, but every call is told another advance and another dwell or pulse width, as the calculations do. Over the life of the engine they may become anything; the calls for one engine cycle agree up to a stated number of degrees (for an injector, also microseconds), and from one call to the next the advance is not retarded by more than the crank has turned. Then each ignition pin is written exactly one pulse per cycle: it starts as long before its spark as a call for that very cycle wanted and ends where a call for that cycle wanted it, both up to a stated number of ticks. Each injection is exactly as long, to the tick, as one call for that cycle wanted. If the advance drops faster than the crank turns the claim is false: the end of an already planned pulse is moved back into the past cycle, its spark is lost and the coil stays on for a whole cycle.", "quantifier": "all histories of advance, dwell and pulse width commands with these bounds; wheels, motions of the crank, settings, interleavings and run lengths as in C87", "why_tests_cant": "The two edges of a pulse are set by different calls with different commands, and each call may be for this cycle or the next; a test with constant commands cannot tell which call an edge obeys, and the lost spark needs a drop of the advance between two particular teeth.", "anchors": ["src/scheduler.c: schedule_ignition_event, schedule_fuel_event, schedule_output_event_safely, schedule_event", "src/decoder.c: decoder_update_scheduling", "src/calculations.c: calculate_ignition, calculate_fueling", "src/platforms/common/stm32_sched_buffers.c: stm32_buffer_swap"]}
{"id": "C89", "title": "The whole firmware, from trigger pulses to output pins, makes one spark and one injection per cycle as its own calculations command", "statement": "The firmware is switched on and fed the pulses of a missing tooth wheel with a cam, from the first tooth it sees, at speeds that change as in C87. It finds the position by itself, calculates advance, dwell and pulse width by itself from sensor readings and settings that may change meanwhile, and schedules all outputs from its trigger and timer interrupts, while the swap interrupt preempts it. From one of the first three sparks due after sync on, the hardware writes exactly one pulse per engine cycle to each ignition pin, and to each fuel pin exactly one: placed as in C88 by the values the firmware calculated for that cycle, and nothing before. This needs that no cut-off is in force, that interrupts are served within a stated latency, and that the calculated values change as slowly as C88 asks.", "quantifier": "all wheels with a gap and a cam pulse, motions of the crank, settings, tables, sensor histories, numbers and kinds of the other outputs, interleavings of trigger, timer and swap interrupts with a stated latency, run lengths", "why_tests_cant": "It composes decoder, calculations, scheduler, callbacks, buffers and their preemption in runs of any length; tests replace all but one of these by stubs.", "anchors": ["src/decoder.c: decoder_update_scheduling, decode_missing_with_camsync", "src/calculations.c: calculate_ignition, calculate_fueling, ignition_cut", "src/scheduler.c: schedule_event, schedule_ignition_event, schedule_fuel_event, schedule_output_event_safely, scheduler_callback_timer_execute", "src/platforms/common/stm32_sched_buffers.c: stm32_buffer_swap"]}
{"id": "C90", "title": "Whatever happens, the running firmware executes nothing undefined", "statement": "Switch the firmware on with settings that make sense and let any events happen in any order: trigger pulses on any input at any tick, timer interrupts, lost captures, buffer swaps in the middle of any other interrupt at any clock reading, new sensor readings, new calculation, output and decoder settings, the built-in test wheel at any speed, emergency shutdown. The release build then never converts a float that does not fit to an integer, never divides by zero, never shifts by a pin number of 32 or more, never reads or writes outside an array, and every interrupt handler finishes. All along, advance, dwell, pulse width, reference angle and number of pending callbacks stay in range, and the speed is at least 1 RPM whenever the position is reported as known. The pulses must keep two rules: no two teeth at one tick (and with evenly spaced teeth no more than nine minutes between two), and a wheel with a gap turns at 1 RPM or more when the position is found; without either rule the claim is false, as is shown. They hold for the pulses of the test wheel too: told to turn at one billion RPM it makes the firmware convert infinity to an integer. The kind of wheel and its tooth counts may only change while no tooth is in the decoder's history; its other settings may change at any time.", "quantifier": "all histories of events; all wheels, tables, settings and readings in the stated ranges; all clock readings and swap interrupts at every point where one may come", "why_tests_cant": "A crash needs a particular history: a position lost with a callback pending, a speed of 0 in one register and not in another, an output moved to another pin while its pulse is on. The claim is about every history of every length.", "anchors": ["src/decoder.c: decoder_update_scheduling, even_tooth_trigger_update, missing_tooth_trigger_update, decode_even_no_sync, decode_even_with_camsync, decode_missing_no_sync, decode_missing_with_camsync", "src/calculations.c: calculate_ignition, calculate_fueling, ignition_cut, fuel_cut", "src/scheduler.c: schedule_event, schedule_ignition_event, schedule_fuel_event, schedule_output_event_safely, deschedule_event, invalidate_scheduled_events, scheduler_callback_timer_execute", "src/util.c: time_from_rpm_diff, clamp_angle, degrees_from_time_diff, rpm_from_time_diff", "src/platforms/common/stm32_sched_buffers.c: stm32_buffer_swap, platform_output_slot_set, platform_output_slot_unset"]}
{"id": "C91", "title": "As long as the teeth keep coming, no speed the firmware calculates can lead it into undefined behaviour", "statement": "C90 has a condition on the speeds the firmware calculates. With a wheel that has a gap the spacing of the pulses is enough instead: if every tooth comes within 150 ms per degree of tooth spacing after the one before (1.2 RPM, 2.3 RPM across the gap), then in any history of pulses, timer interrupts, lost captures, swaps, readings, settings and shutdowns nothing undefined is executed, and the firmware never believes the engine stands still while it knows the position or an output waits for its callback. The first tooth after a loss of the position may come at any time. The rule is needed: an engine that stands still for 75 s before its position is found, and then turns at 6000 RPM, makes the firmware convert infinity to an integer.", "quantifier": "all histories of events with such pulses; all wheels with a gap, with or without a cam, tables, settings and readings in the stated ranges; all clock readings and swap interrupts", "why_tests_cant": "The speed is averaged over up to a whole turn of teeth seen before and after a loss of the position; which old tooth times enter it depends on the whole history.", "anchors": ["src/decoder.c: missing_tooth_trigger_update, missing_tooth_average_rpm, decode_missing_no_sync, decode_missing_with_camsync, push_time, invalidate_decoder, decoder_update_scheduling", "src/scheduler.c: schedule_event, scheduler_callback_timer_execute"]}
{"id": "C92", "title": "From the voltages on the sensor inputs to the pins nothing undefined is executed", "statement": "C90 takes the values of the sensors as given, within ranges. Here the sensors are part of the program: for every sequence of ADC readings between 0 and 5 volts, frequency and pulse width captures, valid or not, engine events as in C90, and changes of a sensor's settings or fixed value through the console, every conversion and every calculation made from its result is defined, and at every moment each sensor the calculations read has a value in a sensible range. This needs only that the valid readings a sensor accepts (those within its fault limits) convert to values in that range, and that windows of averaged sensors are not empty. The built-in sensors meet this as long as the fuel temperature sensor, which has no fault limits, stays within its range of 1 to 5 ms: a pulse of 25 ms, which is a valid capture, reads as 949 degrees Celsius, makes the density of the fuel negative, and leads to an undefined conversion at the next tooth.", "quantifier": "all histories of raw readings, engine events and changes of sensor settings; all decoders, tables and outputs as in C90; all thermistors under which the logarithm is roughly right; all update rates up to 1 MHz", "why_tests_cant": "The value of a sensor depends on all readings before it, through averaging windows tied to the crank angle, lag filters and faults; a test sees a few readings.", "anchors": ["src/sensors.c: sensor_convert, sensor_convert_linear, sensor_convert_linear_windowed, sensor_convert_thermistor, detect_faults, process_lag_filter, process_derivative, sensor_update_adc, sensor_update_freq", "src/calculations.c: calculate_ignition, calculate_fueling, fuel_density, air_density", "src/config.c: config", "src/console.c: render_sensor_object"]}
{"id": "C93", "title": "The firmware as it is shipped executes nothing undefined while the engine turns", "statement": "Take the built-in configuration: the 36-1 wheel with a cam sensor, six ignition and three fuel outputs, the ten sensors and all tables. If every tooth comes within 1.5 s of the one before (after a loss of the position the first may come at any time), the logarithm of the C library is roughly right and the fuel temperature sensor sends pulses of 1 to 5 ms, then for every sequence of teeth, cam pulses, timer interrupts, lost captures, analog and frequency readings, valid or not, and sensible changes of settings through the console, nothing undefined is executed, and the speed is not 0 while the position is known. The same holds for every other sensible configuration of a wheel with a gap.", "quantifier": "all histories of pulses, interrupts, raw readings and changes of settings; all clock readings and swap interrupts; all sensible configurations with a gap in the wheel, in particular the built-in one", "why_tests_cant": "It closes the chain from raw readings and pulses to the pins for the configuration that is flashed, over all histories; tests run parts of the chain on single readings with their own configurations.", "anchors": ["src/config.c: config", "src/sensors.c: sensor_convert, sensor_update_adc, sensor_update_freq", "src/decoder.c: decoder_update_scheduling, decode_missing_with_camsync", "src/calculations.c: calculate_ignition, calculate_fueling", "src/scheduler.c: schedule_event, scheduler_callback_timer_execute"]}
