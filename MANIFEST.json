{
 "claims": [
  {
   "property": "C01",
   "status": "proved",
   "theorems": [
    "C01_time_before",
    "C01_time_before_or_equal",
    "C01_time_in_range",
    "C01_time_diff",
    "C01_sharp"
   ],
   "note": ""
  },
  {
   "property": "C02",
   "status": "proved",
   "theorems": [
    "C02_exact",
    "C02_approx",
    "C02_undefined"
   ],
   "note": ""
  },
  {
   "property": "C03",
   "status": "proved",
   "theorems": [
    "C03_range",
    "C03_identity",
    "C03_terminates",
    "C03_exact",
    "C03_diverges_refuted"
   ],
   "note": ""
  },
  {
   "property": "C04",
   "status": "proved",
   "theorems": [
    "C04_one_axis",
    "C04_two_axis",
    "C04_full_axis",
    "C04_full_axis_refuted",
    "C04_empty_axis_refuted"
   ],
   "note": ""
  },
  {
   "property": "C05",
   "status": "proved",
   "theorems": [
    "C05_one_axis",
    "C05_two_axis",
    "C05_top_refuted"
   ],
   "note": ""
  },
  {
   "property": "C06",
   "status": "proved",
   "theorems": [
    "C06_one_axis",
    "C06_two_axis",
    "C06_containment_refuted"
   ],
   "note": ""
  },
  {
   "property": "C07",
   "status": "proved",
   "theorems": [
    "C07_axis",
    "C07_two_axis",
    "C07_bracketing",
    "C07_accepts_ascending"
   ],
   "note": ""
  },
  {
   "property": "C08",
   "status": "proved",
   "theorems": [
    "C08_ordered"
   ],
   "note": ""
  },
  {
   "property": "C09",
   "status": "proved",
   "theorems": [
    "C09_schedule_completes",
    "C09_interrupt_completes",
    "C09_runs",
    "C09_not_lost"
   ],
   "note": ""
  },
  {
   "property": "C10",
   "status": "proved",
   "theorems": [
    "C10_armed",
    "C10_overdue"
   ],
   "note": ""
  },
  {
   "property": "C11",
   "status": "proved",
   "theorems": [
    "C11_bound",
    "C11_overflow_refuted",
    "C11_firmware",
    "C11_firmware_schedule"
   ],
   "note": "Bound for any number of objects up to 32; the firmware has 18 (16 outputs, decoder expiry, test trigger). C11_overflow_refuted shows the write past the table with 33."
  },
  {
   "property": "C12",
   "status": "proved",
   "theorems": [
    "C12_final_edges",
    "C12_schedule_ignition",
    "C12_schedule_fuel",
    "C12_invalidate"
   ],
   "note": ""
  },
  {
   "property": "C13",
   "status": "proved",
   "theorems": [
    "C13_not_yet_submitted",
    "C13_already_submitted",
    "C13_history"
   ],
   "note": ""
  },
  {
   "property": "C14",
   "status": "proved",
   "theorems": [
    "C14_feasible",
    "C14_whole_or_nothing",
    "C14_wide_pulse_refuted"
   ],
   "note": ""
  },
  {
   "property": "C15",
   "status": "proved",
   "theorems": [
    "C15_turn_off_follows"
   ],
   "note": ""
  },
  {
   "property": "C16",
   "status": "proved",
   "theorems": [
    "C16_order",
    "C16_fuel_is_orderly",
    "C16_ignition_refuted"
   ],
   "note": ""
  },
  {
   "property": "C17",
   "status": "proved",
   "theorems": [
    "C17_fuel_width"
   ],
   "note": ""
  },
  {
   "property": "C18",
   "status": "proved",
   "theorems": [
    "C18_ignition",
    "C18_fuel"
   ],
   "note": ""
  },
  {
   "property": "C19",
   "status": "proved",
   "theorems": [
    "C19_rest",
    "C19_quarter_turn",
    "C19_reschedule_refuted"
   ],
   "note": ""
  },
  {
   "property": "C20",
   "status": "proved",
   "theorems": [
    "C20_edge",
    "C20_startup"
   ],
   "note": ""
  },
  {
   "property": "C21",
   "status": "proved",
   "theorems": [
    "C21_exact",
    "C21_reconfigure_refuted",
    "C21_high_pins_refuted"
   ],
   "note": ""
  },
  {
   "property": "C22",
   "status": "proved",
   "theorems": [
    "C22_window",
    "C22_level_unique",
    "C22_one_window",
    "C22_edge_plays",
    "C22_safe",
    "C22_sorting"
   ],
   "note": ""
  },
  {
   "property": "C23",
   "status": "proved",
   "theorems": [
    "C23_valid_is_sync",
    "C23_loss",
    "C23_expiry_overflow",
    "C23_sync_is_valid"
   ],
   "note": ""
  },
  {
   "property": "C24",
   "status": "proved",
   "theorems": [
    "C24_in_range",
    "C24_one_required_refuted",
    "C24_window_refuted",
    "C24_no_teeth_refuted",
    "C24_same_tick_refuted"
   ],
   "note": ""
  },
  {
   "property": "C25",
   "status": "proved",
   "theorems": [
    "C25_sync",
    "C25_expiry",
    "C25_angle",
    "C25_angle_exact",
    "C25_speed",
    "C25_drift_refuted",
    "C25_early_refuted"
   ],
   "note": "Proved for any steadily turning wheel (constant speed is the special case constant_turning), without bound on the run length. The angle is exact for tooth widths that are multiples of 1/8192 degree (C25_angle_exact); for other widths it is within 1/4096 degree per tooth (C25_angle), and C25_drift_refuted shows that the drift is real: a 33-1 wheel is more than a tenth of a degree off after 600 turns. C25_early_refuted shows why the first tooth must not come right after power-on."
  },
  {
   "property": "C26",
   "status": "proved",
   "theorems": [
    "C26_sync",
    "C26_before_cam",
    "C26_angle",
    "C26_angle_exact",
    "C26_speed_expiry",
    "C26_stale_refuted",
    "C26_window_refuted"
   ],
   "note": "Proved for any wheel whose speed is steady over the averaging window (constant speed is the special case constant_even), without bound on the run length. C26_stale_refuted and C26_window_refuted show where the code departs from the wish."
  },
  {
   "property": "C27",
   "status": "proved",
   "theorems": [
    "C27_count"
   ],
   "note": ""
  },
  {
   "property": "C28",
   "status": "proved",
   "theorems": [
    "C28_intervals",
    "C28_count",
    "C28_disjoint",
    "C28_half_refuted"
   ],
   "note": ""
  },
  {
   "property": "C29",
   "status": "proved",
   "theorems": [
    "C29_armed",
    "C29_even_time",
    "C29_missing_time",
    "C29_expires",
    "C29_first_tooth_refuted",
    "C29_pending",
    "C29_stall"
   ],
   "note": ""
  },
  {
   "property": "C30",
   "status": "proved",
   "theorems": [
    "C30_range",
    "C30_accuracy",
    "C30_monotone",
    "C30_noise_refuted"
   ],
   "note": ""
  },
  {
   "property": "C31",
   "status": "proved",
   "theorems": [
    "C31_hysteresis",
    "C31_cut"
   ],
   "note": ""
  },
  {
   "property": "C32",
   "status": "proved",
   "theorems": [
    "C32_cut",
    "C32_callback"
   ],
   "note": "C32_cut for every trigger in every reachable firmware state, C32_callback for fuel rescheduling from a timer callback."
  },
  {
   "property": "C33",
   "status": "proved",
   "theorems": [
    "C33_tipin",
    "C33_held",
    "C33_expired",
    "C33_from_table",
    "C33_wrap_refuted"
   ],
   "note": ""
  },
  {
   "property": "C34",
   "status": "proved",
   "theorems": [
    "C34_defined",
    "C34_injections_refuted",
    "C34_zero_rpm_refuted",
    "C34_lambda_refuted",
    "C34_negative_refuted"
   ],
   "note": ""
  },
  {
   "property": "C35",
   "status": "proved",
   "theorems": [
    "C35_monotone",
    "C35_minimum",
    "C35_maximum",
    "C35_bounded",
    "C35_degenerate",
    "C35_maximum_refuted"
   ],
   "note": ""
  },
  {
   "property": "C36",
   "status": "proved",
   "theorems": [
    "C36_fault",
    "C36_usable",
    "C36_status",
    "C36_adc",
    "C36_range_not_reported_refuted"
   ],
   "note": ""
  },
  {
   "property": "C37",
   "status": "proved",
   "theorems": [
    "C37_off",
    "C37_between",
    "C37_mean",
    "C37_settles",
    "C37_hundred_refuted"
   ],
   "note": "Float values up to 2^100; C37_hundred_refuted shows that coefficient 100 is not exact."
  },
  {
   "property": "C38",
   "status": "proved",
   "theorems": [
    "C38_average",
    "C38_only_window",
    "C38_window",
    "C38_zero_width_refuted"
   ],
   "note": "For total widths above 0 and capture widths up to the total; C38_zero_width_refuted: width 0 hangs."
  },
  {
   "property": "C39",
   "status": "proved",
   "theorems": [
    "C39_pump",
    "C39_stops",
    "C39_restart_refuted",
    "C39_cranking_refuted"
   ],
   "note": ""
  },
  {
   "property": "C40",
   "status": "proved",
   "theorems": [
    "C40_condition",
    "C40_present",
    "C40_reason",
    "C40_off",
    "C40_hold",
    "C40_last_seen_refuted"
   ],
   "note": ""
  },
  {
   "property": "C41",
   "status": "proved",
   "theorems": [
    "C41_duty",
    "C41_range",
    "C41_pwm",
    "C41_stm32",
    "C41_gd32_refuted"
   ],
   "note": ""
  },
  {
   "property": "C42",
   "status": "proved",
   "theorems": [
    "C42_shutdown",
    "C42_ignition_refuted",
    "C42_submitted_refuted"
   ],
   "note": ""
  },
  {
   "property": "C43",
   "status": "proved",
   "theorems": [
    "C43_order",
    "C43_gaps",
    "C43_delivery"
   ],
   "note": "Interleavings at the granularity of shared memory accesses; EventLog.v."
  },
  {
   "property": "C44",
   "status": "proved",
   "theorems": [
    "C44_no_overflow",
    "C44_only_requests",
    "C44_waits",
    "C44_recovers",
    "C44_delivers",
    "C44_contract",
    "C44_grammar",
    "C44_stale_timer_refuted",
    "C44_split_head_refuted"
   ],
   "note": "For any CBOR library that meets the contract reads_cbor (C44_contract: a reader of RFC 8949 meets it) and every clock. Delivery is proved for requests with a one-byte map head within five seconds of an empty buffer; the two _refuted theorems show what happens otherwise."
  },
  {
   "property": "C45",
   "status": "proved",
   "theorems": [
    "C45_only_set_changes",
    "C45_get"
   ],
   "note": "Every request other than set; only flash and bootloader have effects."
  },
  {
   "property": "C46",
   "status": "proved",
   "theorems": [
    "C46_set_confined",
    "C46_nowhere",
    "C46_strict_refuted"
   ],
   "note": "C46_strict_refuted shows the stricter reading is false."
  },
  {
   "property": "C47",
   "status": "proved",
   "theorems": [
    "C47_get",
    "C47_set",
    "C47_set_then_get",
    "C47_large_unsigned"
   ],
   "note": "Every leaf except the version string; element paths of axes with a value that is not an array; knock settings provided the conversion in knock_configure is defined."
  },
  {
   "property": "C48",
   "status": "proved",
   "theorems": [
    "C48_within_storage",
    "C48_others_total"
   ],
   "note": "The only failure left is the conversion of the knock frequency (C64)."
  },
  {
   "property": "C49",
   "status": "proved",
   "theorems": [
    "C49_response",
    "C49_no_method_refuted",
    "C49_unknown_method_refuted",
    "C49_too_long_refuted"
   ],
   "note": "For requests with a known method; the three C49_..._refuted theorems show what happens otherwise."
  },
  {
   "property": "C50",
   "status": "proved",
   "theorems": [
    "C50_gd32",
    "C50_stm32",
    "C50_per_input",
    "C50_race_refuted"
   ],
   "note": ""
  },
  {
   "property": "C51",
   "status": "proved",
   "theorems": [
    "C51_tlv2553",
    "C51_knock",
    "C51_ad7888",
    "C51_max11632",
    "C51_max11632_refuted",
    "C51_update"
   ],
   "note": ""
  },
  {
   "property": "C52",
   "status": "proved",
   "theorems": [
    "C52_stm32",
    "C52_stm32_refuted",
    "C52_gd32"
   ],
   "note": ""
  },
  {
   "property": "C53",
   "status": "proved",
   "theorems": [
    "C53_wheel",
    "C53_safe",
    "C53_other_counts_refuted",
    "C53_sync"
   ],
   "note": ""
  },
  {
   "property": "C54",
   "status": "proved",
   "theorems": [
    "C54_no_start_without_position",
    "C54_nothing_submitted",
    "C54_disabled_output_refuted"
   ],
   "note": "Over all executions of System.v. The console may change an output's type to disabled only while its start edge is not waiting; C54_disabled_output_refuted shows the code's failure otherwise."
  },
  {
   "property": "C55",
   "status": "proved",
   "theorems": [
    "C55_stray_interrupt_refuted",
    "C55_still_armed_refuted",
    "C55_hosted_double_match_refuted"
   ],
   "note": "The desired property is false of the code; the _refuted theorems prove the failure for every idle history, and that the armed value stays."
  },
  {
   "property": "C56",
   "status": "proved",
   "theorems": [
    "C56_zero_width_refuted"
   ],
   "note": ""
  },
  {
   "property": "C57",
   "status": "proved",
   "theorems": [
    "C57_waveform"
   ],
   "note": ""
  },
  {
   "property": "C58",
   "status": "proved",
   "theorems": [
    "C58_time_of_angle",
    "C58_time_monotone",
    "C58_angle_of_time"
   ],
   "note": ""
  },
  {
   "property": "C59",
   "status": "proved",
   "theorems": [
    "C59_reference",
    "C59_even_nosync",
    "C59_gain_refuted"
   ],
   "note": ""
  },
  {
   "property": "C60",
   "status": "proved",
   "theorems": [
    "C60_ignition",
    "C60_fuel"
   ],
   "note": ""
  },
  {
   "property": "C61",
   "status": "proved",
   "theorems": [
    "C61_tolerance"
   ],
   "note": "Margins of 8 RPM (3 for the minimum) around the exact limits cover float rounding."
  },
  {
   "property": "C62",
   "status": "proved",
   "theorems": [
    "C62_blocks",
    "C62_power",
    "C62_update"
   ],
   "note": ""
  },
  {
   "property": "C63",
   "status": "proved",
   "theorems": [
    "C63_tuning_refuted",
    "C63_tuning"
   ],
   "note": "The desired property is false of the code; C63_tuning_refuted proves the failure for every sample rate up to 131072 Hz and every analysable frequency."
  },
  {
   "property": "C64",
   "status": "proved",
   "theorems": [
    "C64_undefined_refuted",
    "C64_defined",
    "C64_frequency"
   ],
   "note": "The desired property is false of the code; C64_undefined_refuted is the counterexample."
  },
  {
   "property": "C65",
   "status": "proved",
   "theorems": [
    "C65_adc",
    "C65_adc_isolated",
    "C65_freq"
   ],
   "note": ""
  },
  {
   "property": "C66",
   "status": "proved",
   "theorems": [
    "C66_derivative",
    "C66_freq_refuted"
   ],
   "note": ""
  },
  {
   "property": "C67",
   "status": "proved",
   "theorems": [
    "C67_monotone",
    "C67_resistance",
    "C67_temperature"
   ],
   "note": ""
  },
  {
   "property": "C68",
   "status": "proved",
   "theorems": [
    "C68_refines",
    "C68_never_missed",
    "C68_committed_edge_plays",
    "C68_nothing_else_plays"
   ],
   "note": ""
  },
  {
   "property": "C69",
   "status": "proved",
   "theorems": [
    "C69_callback_is_turn_off",
    "C69_ignition_has_none",
    "C69_callback_is_armed"
   ],
   "note": ""
  },
  {
   "property": "C70",
   "status": "proved",
   "theorems": [
    "C70_usb_reads",
    "C70_packet_lost_refuted",
    "C70_overflow_refuted"
   ],
   "note": "Proved when no packet interrupt falls inside console_read; C70_packet_lost_refuted and C70_overflow_refuted show the failures when one does."
  },
  {
   "property": "C71",
   "status": "proved",
   "theorems": [
    "C71_sent_whole"
   ],
   "note": ""
  },
  {
   "property": "C72",
   "status": "proved",
   "theorems": [
    "C72_stm32",
    "C72_stm32_race_refuted",
    "C72_gd32_refuted"
   ],
   "note": ""
  },
  {
   "property": "C73",
   "status": "proved",
   "theorems": [
    "C73_gd32",
    "C73_gd32_both_refuted",
    "C73_stm32",
    "C73_stm32_disabled_refuted"
   ],
   "note": ""
  },
  {
   "property": "C74",
   "status": "proved",
   "theorems": [
    "C74_program_safe",
    "C74_interrupted_refuted"
   ],
   "note": ""
  },
  {
   "property": "C75",
   "status": "proved",
   "theorems": [
    "C75_sync",
    "C75_sync_before_cam",
    "C75_expiry",
    "C75_angle",
    "C75_angle_exact",
    "C75_speed",
    "C75_absolute"
   ],
   "note": ""
  },
  {
   "property": "C76",
   "status": "proved",
   "theorems": [
    "C76_missing_cam",
    "C76_extra_cam"
   ],
   "note": ""
  },
  {
   "property": "C77",
   "status": "proved",
   "theorems": [
    "C77_spark",
    "C77_injection",
    "C77_spark_even",
    "C77_injection_even"
   ],
   "note": "For wheels whose tooth width is a multiple of 1/8192 degree (others drift, see C25); the error bound is explicit in CrankSpec.on_angle. Pulses that no longer fit are not played (C18, C19)."
  },
  {
   "property": "C78",
   "status": "proved",
   "theorems": [
    "C78_frequency",
    "C78_every_edge",
    "C78_stopped_signal_refuted",
    "C78_pulse",
    "C78_timeout",
    "C78_slow_signal_refuted"
   ],
   "note": "The TIMER8 part assumes the handler runs before the next falling edge. C78_stopped_signal_refuted and C78_slow_signal_refuted record what users might also expect and the code does not do: noticing a stopped signal on the free-running input, and not reporting a valid, far too high frequency for signals below 1 Hz."
  },
  {
   "property": "C79",
   "status": "proved",
   "theorems": [
    "C79_injection"
   ],
   "note": "For engines that breathe (at least 5 % efficiency, 5 kPa, 50 cm^3, air of 1/4096 g/cm^3) within the ranges of C34; the formulas are FuelSpec.v."
  },
  {
   "property": "C80",
   "status": "proved",
   "theorems": [
    "C80_ignition"
   ],
   "note": ""
  },
  {
   "property": "C81",
   "status": "proved",
   "theorems": [
    "C81_cut"
   ],
   "note": ""
  },
  {
   "property": "C82",
   "status": "proved",
   "theorems": [
    "C82_stream",
    "C82_next",
    "C82_settings"
   ],
   "note": "tinycbor's encoder is a contract (canonical heads, floats as 0xfa). NaNs are one value in the model of floats: payloads are not tracked. Values are assumed to be of their C types (call_fits); C82_settings shows the settings stay so."
  },
  {
   "property": "C83",
   "status": "proved",
   "theorems": [
    "C83_feed",
    "C83_events",
    "C83_order",
    "C83_cadence",
    "C83_once_per_second"
   ],
   "note": "The flash and bootloader requests are taken not to stop the run. C83_once_per_second assumes calls at most 0.9 s apart."
  },
  {
   "property": "C84",
   "status": "proved",
   "theorems": [
    "C84_sparks",
    "C84_sparks_even"
   ],
   "note": "Constant speed, advance and dwell; the regime record of SparkSpec.v states the speeds and settings (dwell longer than twice the uncertainty of the plan, one cycle ahead if a rest between pulses is set; dwell, rest, latency, tooth distance and that uncertainty fit into a cycle). Calls are assumed to finish within 'late' ticks of their tooth, swaps to come in their 128-tick block. Single-core interleaving with the granularity of OutputRun.v."
  },
  {
   "property": "C85",
   "status": "proved",
   "theorems": [
    "C85_injections",
    "C85_injections_even"
   ],
   "note": "As C84, with the regime of SparkSpec.v for the pulse width (rest 0), so duty cycles near 100% are outside. The calls made by the timer at the end of an injection are those of calls_follow that repeat a tooth; the timer queue itself is modelled in Callbacks.v."
  },
  {
   "property": "C86",
   "status": "proved",
   "theorems": [
    "C86_tasks"
   ],
   "note": "Runs less than the wrap of the clock apart. Pins of the pump and of the light distinct, as is needed. What the tasks read (sensors, decoder) may differ between tasks of one run; the tooth time is read once."
  },
  {
   "property": "C87",
   "status": "proved",
   "theorems": [
    "C87_sparks",
    "C87_sparks_even",
    "C87_injections",
    "C87_injections_even"
   ],
   "note": "moves (VarySpec.v) bounds the change of the speed, vregime the speeds and settings as in C84; the wheel is also steady in the sense of C25, so that no tooth is taken for a gap. Advance, dwell and pulse width are constant; C88 has them change. Assumptions on latency and interleaving as in C84."
  },
  {
   "property": "C88",
   "status": "proved",
   "theorems": [
    "C88_sparks",
    "C88_sparks_even",
    "C88_injections",
    "C88_injections_even",
    "C88_jump_refuted"
   ],
   "note": "steers (SteerSpec.v) bounds how far the commands of calls for one cycle may differ; retards_slowly is needed, and C88_jump_refuted shows by a run of the model that without it the claim is false (a defect of schedule_output_event_safely: the end of a planned pulse can be moved before its start). That the calculations obey these bounds is a hypothesis. Regime, latency and interleaving as in C87."
  },
  {
   "property": "C89",
   "status": "proved",
   "theorems": [
    "C89_sparks",
    "C89_injections"
   ],
   "note": "Proved by simulation of the firmware of System.v by the one-output runs of C88 (FwLink.v, FwRun.v). smooth (FwSpec.v) states what may happen: no cut-off, no decoder timeout, no new decoder or output configuration, no test trigger, and a bound on the latency of each call; for an injector the latency covers the call at the end of an injection. The played buffers are recorded by a ghost field of the firmware state. Cam wheels with a gap only; the first cam pulse is not the one of the tooth behind the gap."
  },
  {
   "property": "C90",
   "status": "proved",
   "theorems": [
    "C90_defined",
    "C90_commands",
    "C90_slow_refuted",
    "C90_same_tick_refuted",
    "C90_stop_refuted",
    "C90_callback_refuted",
    "C90_test_speed_refuted"
   ],
   "note": "Invariant over all events of System.v (SafeDec.v for the decoder, FwSafe.v for calculations, outputs, callbacks and buffers), for the release build (NDEBUG, as in targets/stm32f4.mk). sound (SafeSpec.v) lists the conditions on events; the decoder's settings may change and the test wheel may run, its pulses under the same conditions as others. C90_slow_refuted, C90_same_tick_refuted, C90_stop_refuted C90_callback_refuted and C90_test_speed_refuted show that the conditions on pulses and callbacks are needed: an engine turned by hand at 0.6 RPM makes the firmware convert infinity to an integer."
  },
  {
   "property": "C91",
   "status": "proved",
   "theorems": [
    "C91_defined",
    "C91_speed",
    "C91_pause_refuted"
   ],
   "note": "paced (PaceSpec.v) is the rule on pulses, sound_paced the conditions on all events; nothing in them mentions a calculated speed. C91_pause_refuted shows that the rule is needed. Wheels with evenly spaced teeth are not covered: for them C90's condition on the speed at a callback remains."
  },
  {
   "property": "C92",
   "status": "proved",
   "theorems": [
    "C92_defined",
    "C92_values",
    "C92_factory",
    "C92_fuel_temperature_refuted"
   ],
   "note": "Rig.v joins Sensors.v and Freq.v to the firmware of System.v; RigSpec.v states what a sensor must be like and which events may happen. C92_defined: no step is undefined; C92_values: the values are in their ranges and are those the calculations use; C92_factory: the built-in sensors, with pulses of 1 to 5 ms on the fuel temperature input, or with any pulses if fault limits are added to that sensor, for any logf that is roughly right (log_sane). C92_fuel_temperature_refuted: without these limits a valid pulse of 25 ms leads to an undefined conversion."
  },
  {
   "property": "C93",
   "status": "proved",
   "theorems": [
    "C93_defined",
    "C93_shipped",
    "C93_speed"
   ],
   "note": "Composition of C91 and C92 (rsound_paced in RigSpec.v). C93_defined for every sensible configuration with a gap in the wheel, C93_shipped and C93_speed for the built-in one (Factory.v, DefaultConfig.v). The condition on the moment of an analog reading (may_read: the crank has turned less than 900000 degrees since the last tooth) remains, see C30. The example starts the shipped firmware until all nine outputs are scheduled."
  }
 ]
}