{
 "claims": [
  {
   "property": "C01",
   "status": "proved",
   "theorems": [
    "C01_live_buffers_disjoint"
   ],
   "note": ""
  },
  {
   "property": "C02",
   "status": "proved",
   "theorems": [
    "C02_first_fit",
    "C02_first_fit_observable",
    "C02_sample_rate"
   ],
   "note": "C02_first_fit reads free cells off the allocator; C02_first_fit_observable uses only calls and answers, while the descriptor table is not full."
  },
  {
   "property": "C03",
   "status": "proved",
   "theorems": [
    "C03_failed_calls_change_nothing"
   ],
   "note": ""
  },
  {
   "property": "C04",
   "status": "proved",
   "theorems": [
    "C04_accounting",
    "C04_accounting_exact",
    "C04_exact_without_room_refuted"
   ],
   "note": "Exact equality needs a descriptor slot before each allocate; C04_exact_without_room_refuted shows it is otherwise false (surplus of a full table counts as used)."
  },
  {
   "property": "C05",
   "status": "proved",
   "theorems": [
    "C05_release"
   ],
   "note": ""
  },
  {
   "property": "C06",
   "status": "proved",
   "theorems": [
    "C06_release_all_pristine"
   ],
   "note": ""
  },
  {
   "property": "C07",
   "status": "proved",
   "theorems": [
    "C07_no_overrun",
    "C07_full_table"
   ],
   "note": ""
  },
  {
   "property": "C08",
   "status": "proved",
   "theorems": [
    "C08_oversized_rejected",
    "C08_oversized_rejected_refuted"
   ],
   "note": "Rejection holds when numSamples*channels does not overflow; refuted otherwise by allocate(2^63,2)."
  },
  {
   "property": "C09",
   "status": "proved",
   "theorems": [
    "C09_fill_mono",
    "C09_fill_stereo",
    "C09_fill_interleaved"
   ],
   "note": ""
  },
  {
   "property": "C10",
   "status": "proved",
   "theorems": [
    "C10_isolation",
    "C10_init_zeroes"
   ],
   "note": ""
  },
  {
   "property": "C11",
   "status": "proved",
   "theorems": [
    "C11_reads_safe"
   ],
   "note": ""
  },
  {
   "property": "C12",
   "status": "proved",
   "theorems": [
    "C12_output_is_last_swap",
    "C12_no_alias",
    "C12_full_block",
    "C12_reader_consistent",
    "C12_torn_read_refuted",
    "C12_stale_writer_refuted"
   ],
   "note": ""
  },
  {
   "property": "C13",
   "status": "proved",
   "theorems": [
    "C13_SinOsc",
    "C13_LFTri",
    "C13_SawDPW",
    "C13_LFNoise2",
    "C13_EnvelopeAR",
    "C13_EnvelopeADSR",
    "C13_XLine",
    "C13_Phasor",
    "C13_Lag",
    "C13_LagLinear",
    "C13_OnePoleLPF",
    "C13_DCBlock",
    "C13_Tape",
    "C13_CombC",
    "C13_BufRd",
    "C13_Wrap_DBAmp",
    "C13_XPlay",
    "C13_resonant_filters",
    "C13_ExampleVoice",
    "C13_SuperSaw",
    "C13_buffers",
    "C13_overlap_refuted"
   ],
   "note": ""
  },
  {
   "property": "C14",
   "status": "proved",
   "theorems": [
    "C14_clamp",
    "C14_clamp_nan",
    "C14_lerp_bounded",
    "C14_lerp_start",
    "C14_lerp_monotone",
    "C14_lerp_end_refuted"
   ],
   "note": ""
  },
  {
   "property": "C15",
   "status": "proved",
   "theorems": [
    "C15_monotone",
    "C15_low_endpoint",
    "C15_bounded",
    "C15_empty_source_range",
    "C15_high_endpoint_refuted"
   ],
   "note": ""
  },
  {
   "property": "C16",
   "status": "proved",
   "theorems": [
    "C16_unit_range",
    "C16_integers_exact",
    "C16_error_bound",
    "C16_cached_equals_direct",
    "C16_empty_range",
    "C16_upper_exclusive_refuted",
    "C16_lower_bound_refuted"
   ],
   "note": ""
  },
  {
   "property": "C17",
   "status": "proved",
   "theorems": [
    "C17_trig_hypotheses",
    "C17_pan2_equal_power",
    "C17_balance2_equal_power",
    "C17_xfade2_equal_power",
    "C17_hard_left",
    "C17_hard_right",
    "C17_centre",
    "C17_out_of_range"
   ],
   "note": ""
  },
  {
   "property": "C18",
   "status": "proved",
   "theorems": [
    "C18_pan2",
    "C18_xfade2",
    "C18_xfade2_stereo",
    "C18_balance2_unit_level",
    "C18_balance2_close",
    "C18_balance2_level_refuted",
    "C18_centre_hypothesis"
   ],
   "note": ""
  },
  {
   "property": "C19",
   "status": "proved",
   "theorems": [
    "C19_xfade2_keeps_position",
    "C19_balance2_keeps_position",
    "C19_xfade2_mute_sticks_refuted",
    "C19_xfade2_infinite_refuted",
    "C19_balance2_polarity_refuted",
    "C19_balance2_level0_refuted"
   ],
   "note": ""
  },
  {
   "property": "C20",
   "status": "proved",
   "theorems": [
    "C20_unit_range",
    "C20_exp_hypotheses"
   ],
   "note": ""
  },
  {
   "property": "C21",
   "status": "proved",
   "theorems": [
    "C21_attack_nondecreasing",
    "C21_attack_drop_bounded",
    "C21_release_nonincreasing",
    "C21_idle_silent",
    "C21_release_ends",
    "C21_attack_coefficient_one_refuted"
   ],
   "note": ""
  },
  {
   "property": "C22",
   "status": "proved",
   "theorems": [
    "C22_attack_completes",
    "C22_attack_stalls",
    "C22_no_third_case",
    "C22_short_attack_time",
    "C22_long_attack_time_refuted",
    "C22_adsr_attack_completes",
    "C22_adsr_attack_stalls"
   ],
   "note": ""
  },
  {
   "property": "C23",
   "status": "proved",
   "theorems": [
    "C23_unit_range",
    "C23_nan_sustain_refuted"
   ],
   "note": ""
  },
  {
   "property": "C24",
   "status": "proved",
   "theorems": [
    "C24_gate_semantics",
    "C24_release_ends",
    "C24_idle_silent",
    "C24_sustain_holds",
    "C24_nan_gate_refuted"
   ],
   "note": ""
  },
  {
   "property": "C25",
   "status": "proved",
   "theorems": [
    "C25_bounded",
    "C25_reset_reproduces",
    "C25_spline_of_seed",
    "C25_smooth",
    "C25_huge_frequency_refuted"
   ],
   "note": ""
  },
  {
   "property": "C26",
   "status": "proved",
   "theorems": [
    "C26_full_period",
    "C26_visits_every_state",
    "C26_seeds_stay_apart",
    "C26_value"
   ],
   "note": ""
  },
  {
   "property": "C27",
   "status": "proved",
   "theorems": [
    "C27_sin_hypotheses",
    "C27_sinosc",
    "C27_lftri",
    "C27_lfnoise2",
    "C27_strict_after_tick",
    "C27_out_of_range_refuted"
   ],
   "note": ""
  },
  {
   "property": "C28",
   "status": "proved",
   "theorems": [
    "C28_bounded",
    "C28_amplitude_two",
    "C28_documented_range_refuted",
    "C28_reset_click",
    "C28_zero_frequency_nan",
    "C28_frequency_change_refuted"
   ],
   "note": ""
  },
  {
   "property": "C29",
   "status": "proved",
   "theorems": [
    "C29_on_time",
    "C29_retime",
    "C29_instant",
    "C29_straight_line",
    "C29_retime_straight_line",
    "C29_overshoot_refuted",
    "C29_too_long_refuted"
   ],
   "note": ""
  },
  {
   "property": "C30",
   "status": "proved",
   "theorems": [
    "C30_lag",
    "C30_onepole",
    "C30_follower",
    "C30_negative_time_refuted"
   ],
   "note": "The downsampler filter is covered by C43."
  },
  {
   "property": "C31",
   "status": "proved",
   "theorems": [
    "C31_lag",
    "C31_onepole",
    "C31_pole",
    "C31_lag_time",
    "C31_documented_settling_refuted"
   ],
   "note": ""
  },
  {
   "property": "C32",
   "status": "proved",
   "theorems": [
    "C32_never_grows",
    "C32_decays",
    "C32_bounded",
    "C32_stereo",
    "C32_tiny_cutoff_refuted"
   ],
   "note": ""
  },
  {
   "property": "C33",
   "status": "proved",
   "theorems": [
    "C33_on_time",
    "C33_long_line_refuted",
    "C33_replay",
    "C33_curve",
    "C33_frozen_refuted"
   ],
   "note": ""
  },
  {
   "property": "C34",
   "status": "proved",
   "theorems": [
    "C34_endpoints",
    "C34_first_sample",
    "C34_duration",
    "C34_negative_zero_refuted"
   ],
   "note": ""
  },
  {
   "property": "C35",
   "status": "proved",
   "theorems": [
    "C35_range",
    "C35_upward",
    "C35_zero_based",
    "C35_exact",
    "C35_end_output_refuted",
    "C35_empty_range_refuted"
   ],
   "note": ""
  },
  {
   "property": "C36",
   "status": "proved",
   "theorems": [
    "C36_trigger"
   ],
   "note": ""
  },
  {
   "property": "C37",
   "status": "proved",
   "theorems": [
    "C37_safe",
    "C37_nan_phase_undefined_refuted",
    "C37_no_buffer"
   ],
   "note": ""
  },
  {
   "property": "C38",
   "status": "proved",
   "theorems": [
    "C38_integer_phase",
    "C38_huge_samples_refuted",
    "C38_long_buffer_refuted"
   ],
   "note": ""
  },
  {
   "property": "C39",
   "status": "proved",
   "theorems": [
    "C39_loop_nonneg",
    "C39_loop_negative",
    "C39_below_multiple_refuted",
    "C39_clamps"
   ],
   "note": ""
  },
  {
   "property": "C40",
   "status": "proved",
   "theorems": [
    "C40_bounded",
    "C40_channels",
    "C40_cubic_overshoot_refuted"
   ],
   "note": ""
  },
  {
   "property": "C41",
   "status": "proved",
   "theorems": [
    "C41_safe",
    "C41_nan_delay_refuted",
    "C41_negative_refuted",
    "C41_endless_refuted"
   ],
   "note": ""
  },
  {
   "property": "C42",
   "status": "proved",
   "theorems": [
    "C42_comb",
    "C42_zero_delay_refuted"
   ],
   "note": ""
  },
  {
   "property": "C43",
   "status": "proved",
   "theorems": [
    "C43_ready",
    "C43_empty",
    "C43_bounded",
    "C43_process",
    "C43_process_needs",
    "C43_stereo"
   ],
   "note": ""
  },
  {
   "property": "C44",
   "status": "proved",
   "theorems": [
    "C44_plain_returns",
    "C44_preserve_returns",
    "C44_short_loop_refuted"
   ],
   "note": ""
  },
  {
   "property": "C45",
   "status": "proved",
   "theorems": [
    "C45_defined",
    "C45_rate_refuted",
    "C45_nan_start_refuted"
   ],
   "note": ""
  },
  {
   "property": "C46",
   "status": "proved",
   "theorems": [
    "C46_settings",
    "C46_range",
    "C46_nan_refuted"
   ],
   "note": "C46_nan_refuted: NaN is stored by every setter."
  },
  {
   "property": "C47",
   "status": "proved",
   "theorems": [
    "C47_network",
    "C47_table"
   ],
   "note": "Exact equality with the ideal network (FvSpec.net_step) and exact definedness. The internal work buffer of FVerb.cpp is represented only by whether it has been allocated."
  },
  {
   "property": "C48",
   "status": "proved",
   "theorems": [
    "C48_empty",
    "C48_first_refuted",
    "C48_only_first",
    "C48_bypass"
   ],
   "note": "C48_first_refuted: undefined for every history whose first block after init is empty."
  },
  {
   "property": "C49",
   "status": "proved",
   "theorems": [
    "C49_bounded",
    "C49_bounded_any_memory",
    "C49_settles",
    "C49_low_rate_refuted",
    "C49_low_rate_overflow_refuted",
    "C49_low_rate_repaired"
   ],
   "note": ""
  },
  {
   "property": "C50",
   "status": "proved",
   "theorems": [
    "C50_stilson_bounded",
    "C50_krajeski_bounded",
    "C50_krajeski_finite",
    "C50_krajeski_nan_refuted"
   ],
   "note": ""
  },
  {
   "property": "C51",
   "status": "proved",
   "theorems": [
    "C51_oberheim",
    "C51_improved",
    "C51_microtracker",
    "C51_rk",
    "C51_musicdsp",
    "C51_stilson",
    "C51_krajeski_refuted",
    "C51_krajeski_repeat"
   ],
   "note": ""
  },
  {
   "property": "C52",
   "status": "proved",
   "theorems": [
    "C52_index",
    "C52_gain",
    "C52_far_cutoff_refuted",
    "C52_nan_cutoff_refuted",
    "C52_init_determined"
   ],
   "note": ""
  },
  {
   "property": "C53",
   "status": "proved",
   "theorems": [
    "C53_unit_range",
    "C53_overflow_refuted",
    "C53_mono_is_left"
   ],
   "note": ""
  },
  {
   "property": "C54",
   "status": "proved",
   "theorems": [
    "C54_libm_hypotheses",
    "C54_amplitude",
    "C54_silent",
    "C54_supersaw_silent",
    "C54_bad_frequency_refuted",
    "C54_supersaw_zero_frequency_refuted"
   ],
   "note": "Frequencies, depths and rates are guarded as in VcSpec.ev_ok / SsSpec.ss_ok; the NaN cases are refuted universally. SuperSaw's mt19937 draws are an arbitrary function into [0,1]."
  },
  {
   "property": "C55",
   "status": "proved",
   "theorems": [
    "C55_held_note",
    "C55_decay_settles",
    "C55_decay_time",
    "C55_long_decay_refuted"
   ],
   "note": ""
  },
  {
   "property": "C56",
   "status": "proved",
   "theorems": [
    "C56_pow_hypotheses",
    "C56_zero_db_is_unity",
    "C56_monotone",
    "C56_sides_of_unity",
    "C56_accuracy",
    "C56_pow_accuracy_hypothesis"
   ],
   "note": ""
  },
  {
   "property": "C57",
   "status": "proved",
   "theorems": [
    "C57_sinosc_wave",
    "C57_lftri_wave"
   ],
   "note": ""
  },
  {
   "property": "C58",
   "status": "proved",
   "theorems": [
    "C58_drift",
    "C58_frequency"
   ],
   "note": ""
  },
  {
   "property": "C59",
   "status": "proved",
   "theorems": [
    "C59_linear",
    "C59_cubic",
    "C59_cubic_start_refuted"
   ],
   "note": ""
  },
  {
   "property": "C60",
   "status": "proved",
   "theorems": [
    "C60_fractional",
    "C60_short_refuted"
   ],
   "note": ""
  },
  {
   "property": "C61",
   "status": "proved",
   "theorems": [
    "C61_feedback",
    "C61_sixty_dB",
    "C61_stable",
    "C61_stable_whole"
   ],
   "note": ""
  },
  {
   "property": "C62",
   "status": "proved",
   "theorems": [
    "C62_filter",
    "C62_settles"
   ],
   "note": ""
  },
  {
   "property": "C63",
   "status": "proved",
   "theorems": [
    "C63_window",
    "C63_fast_rate_refuted"
   ],
   "note": ""
  },
  {
   "property": "C64",
   "status": "proved",
   "theorems": [
    "C64_init_drops_buffer_refuted"
   ],
   "note": ""
  },
  {
   "property": "C65",
   "status": "proved",
   "theorems": [
    "C65_level",
    "C65_any_interpolation"
   ],
   "note": ""
  },
  {
   "property": "C66",
   "status": "proved",
   "theorems": [
    "C66_release",
    "C66_nothing_to_play_refuted"
   ],
   "note": ""
  },
  {
   "property": "C67",
   "status": "proved",
   "theorems": [
    "C67_bounce",
    "C67_turning_point_refuted"
   ],
   "note": ""
  },
  {
   "property": "C68",
   "status": "proved",
   "theorems": [
    "C68_first_pass"
   ],
   "note": ""
  },
  {
   "property": "C69",
   "status": "proved",
   "theorems": [
    "C69_parameters",
    "C69_freq_kept",
    "C69_res_kept",
    "C69_setters_commute",
    "C69_nan_refuted"
   ],
   "note": ""
  },
  {
   "property": "C70",
   "status": "proved",
   "theorems": [
    "C70_nan_sticks",
    "C70_nan_freq_sticks",
    "C70_reset_fresh"
   ],
   "note": ""
  },
  {
   "property": "C71",
   "status": "proved",
   "theorems": [
    "C71_mute",
    "C71_reset"
   ],
   "note": ""
  },
  {
   "property": "C72",
   "status": "proved",
   "theorems": [
    "C72_unit",
    "C72_fixed_cutoff",
    "C72_moving_cutoff",
    "C72_slow_cutoff"
   ],
   "note": ""
  },
  {
   "property": "C73",
   "status": "proved",
   "theorems": [
    "C73_nan_sticks",
    "C73_reset_recovers"
   ],
   "note": ""
  },
  {
   "property": "C74",
   "status": "proved",
   "theorems": [
    "C74_above_nyquist_refuted"
   ],
   "note": ""
  },
  {
   "property": "C75",
   "status": "proved",
   "theorems": [
    "C75_pitch",
    "C75_deep_vibrato_refuted",
    "C75_depth_off_refuted",
    "C75_frequency_without_vibrato"
   ],
   "note": "The modulator value m is LFNoise2's output. Depths above one semitone are only covered by the witness."
  },
  {
   "property": "C76",
   "status": "proved",
   "theorems": [
    "C76_same_sequence",
    "C76_lockstep_refuted"
   ],
   "note": "The documented independence is refuted for all runs."
  },
  {
   "property": "C77",
   "status": "proved",
   "theorems": [
    "C77_reset_repeats",
    "C77_stale_pitch_refuted",
    "C77_supersaw_reset_refuted"
   ],
   "note": "Exact equality of all later samples; the two violations are concrete runs."
  },
  {
   "property": "C78",
   "status": "proved",
   "theorems": [
    "C78_finite",
    "C78_bounded",
    "C78_full_scale_refuted",
    "C78_frequency_change_refuted"
   ],
   "note": "Bound proved for accurate sin/cos/pow; the draws are arbitrary numbers in [0,1]. Violations of full scale are concrete runs."
  },
  {
   "property": "C79",
   "status": "proved",
   "theorems": [
    "C79_voice_frequency"
   ],
   "note": "Frequencies are read off the voices after a tick."
  },
  {
   "property": "C80",
   "status": "proved",
   "theorems": [
    "C80_defined",
    "C80_nan_refuted",
    "C80_low_rate_refuted"
   ],
   "note": "C80_low_rate_refuted is a computed witness at 1 Hz; rates between 1 and 45 Hz are not settled."
  },
  {
   "property": "C81",
   "status": "proved",
   "theorems": [
    "C81_onset",
    "C81_own_left",
    "C81_own_right"
   ],
   "note": "Equality of the bounds is shown at 200 Hz only (ex_C81)."
  },
  {
   "property": "C82",
   "status": "proved",
   "theorems": [
    "C82_silence"
   ],
   "note": ""
  },
  {
   "property": "C83",
   "status": "proved",
   "theorems": [
    "C83_reset"
   ],
   "note": ""
  },
  {
   "property": "C84",
   "status": "proved",
   "theorems": [
    "C84_blocks"
   ],
   "note": ""
  },
  {
   "property": "C85",
   "status": "proved",
   "theorems": [
    "C85_frame_limit_refuted",
    "C85_reset_helps"
   ],
   "note": "C85_frame_limit_refuted for all histories; C85_reset_helps for runs with resets."
  },
  {
   "property": "C86",
   "status": "proved",
   "theorems": [
    "C86_setting_refuted",
    "C86_sample_right_refuted",
    "C86_sample_left_refuted"
   ],
   "note": "Sample case proved for predelay 0 without later setPredelay; the setting case covers the seven parameters that scale the signal inside the network."
  },
  {
   "property": "C87",
   "status": "proved",
   "theorems": [
    "C87_krajeski",
    "C87_microtracker",
    "C87_musicdsp",
    "C87_improved",
    "C87_oberheim",
    "C87_rk",
    "C87_stilson"
   ],
   "note": ""
  },
  {
   "property": "C88",
   "status": "proved",
   "theorems": [
    "C88_musicdsp_refuted",
    "C88_improved_refuted",
    "C88_rk_refuted",
    "C88_microtracker_refuted"
   ],
   "note": "The property as worded is refuted, for all continuations; Krajeski, Stilson and Oberheim are treated in C50, C71, C73."
  },
  {
   "property": "C89",
   "status": "proved",
   "theorems": [
    "C89_improved"
   ],
   "note": ""
  },
  {
   "property": "C90",
   "status": "proved",
   "theorems": [
    "C90_rk"
   ],
   "note": ""
  },
  {
   "property": "C91",
   "status": "proved",
   "theorems": [
    "C91_microtracker"
   ],
   "note": "Resonance up to 0.24 only; the property claims no more."
  },
  {
   "property": "C92",
   "status": "proved",
   "theorems": [
    "C92_full_resonance",
    "C92_half_resonance",
    "C92_low_resonance",
    "C92_runaway_refuted"
   ],
   "note": ""
  },
  {
   "property": "C93",
   "status": "proved",
   "theorems": [
    "C93_loads",
    "C93_surround_refuted",
    "C93_overwrites_refuted"
   ],
   "note": ""
  },
  {
   "property": "C94",
   "status": "proved",
   "theorems": [
    "C94_capped_refuted",
    "C94_sticks",
    "C94_comes_round",
    "C94_playback_refuted"
   ],
   "note": ""
  },
  {
   "property": "C95",
   "status": "proved",
   "theorems": [
    "C95_range",
    "C95_accurate",
    "C95_scale"
   ],
   "note": ""
  },
  {
   "property": "C96",
   "status": "proved",
   "theorems": [
    "C96_safe_and_bounded"
   ],
   "note": ""
  },
  {
   "property": "C97",
   "status": "proved",
   "theorems": [
    "C97_faithful"
   ],
   "note": ""
  },
  {
   "property": "C98",
   "status": "proved",
   "theorems": [
    "C98_cutoff",
    "C98_resonance",
    "C98_any_pointer"
   ],
   "note": ""
  },
  {
   "property": "C99",
   "status": "proved",
   "theorems": [
    "C99_bounded"
   ],
   "note": ""
  },
  {
   "property": "C100",
   "status": "proved",
   "theorems": [
    "C100_held",
    "C100_rate_change_refuted"
   ],
   "note": ""
  },
  {
   "property": "C101",
   "status": "proved",
   "theorems": [
    "C101_bounded"
   ],
   "note": ""
  },
  {
   "property": "C102",
   "status": "proved",
   "theorems": [
    "C102_quiet_start",
    "C102_held_sounds",
    "C102_released_fades",
    "C102_rate_change_refuted"
   ],
   "note": ""
  },
  {
   "property": "C103",
   "status": "proved",
   "theorems": [
    "C103_pitch",
    "C103_rate_change_refuted"
   ],
   "note": ""
  },
  {
   "property": "C104",
   "status": "proved",
   "theorems": [
    "C104_pointer_refuted"
   ],
   "note": ""
  },
  {
   "property": "C105",
   "status": "proved",
   "theorems": [
    "C105_safe_and_bounded"
   ],
   "note": ""
  },
  {
   "property": "C106",
   "status": "proved",
   "theorems": [
    "C106_middle_half"
   ],
   "note": ""
  },
  {
   "property": "C107",
   "status": "proved",
   "theorems": [
    "C107_defined",
    "C107_chain",
    "C107_long_block_refuted",
    "C107_empty_first_refuted",
    "C107_endurance_refuted"
   ],
   "note": ""
  },
  {
   "property": "C108",
   "status": "proved",
   "theorems": [
    "C108_dry_bounded"
   ],
   "note": ""
  },
  {
   "property": "C109",
   "status": "proved",
   "theorems": [
    "C109_held",
    "C109_closed_refuted",
    "C109_seeds",
    "C109_alike_refuted"
   ],
   "note": ""
  },
  {
   "property": "C110",
   "status": "proved",
   "theorems": [
    "C110_cutoff",
    "C110_drive",
    "C110_gain",
    "C110_any_pointer"
   ],
   "note": ""
  },
  {
   "property": "C111",
   "status": "proved",
   "theorems": [
    "C111_level"
   ],
   "note": ""
  },
  {
   "property": "C112",
   "status": "proved",
   "theorems": [
    "C112_exact",
    "C112_accounts",
    "C112_reverbs_clean",
    "C112_reinit_refuted",
    "C112_plain_comb_refuted",
    "C112_copies_refuted"
   ],
   "note": ""
  },
  {
   "property": "C113",
   "status": "proved",
   "theorems": [
    "C113_ring",
    "C113_sum_exact",
    "C113_reading",
    "C113_pause_refuted"
   ],
   "note": ""
  },
  {
   "property": "C114",
   "status": "proved",
   "theorems": [
    "C114_draws",
    "C114_start",
    "C114_seeds",
    "C114_notes_apart",
    "C114_example_bounded"
   ],
   "note": ""
  },
  {
   "property": "C115",
   "status": "proved",
   "theorems": [
    "C115_ar_attack_curve",
    "C115_ar_attack_time",
    "C115_ar_attack_comment_refuted",
    "C115_ar_release_curve",
    "C115_ar_release_time",
    "C115_ar_release_comment_refuted",
    "C115_adsr_attack_time",
    "C115_adsr_decay_curve",
    "C115_adsr_decay_time",
    "C115_adsr_release_time"
   ],
   "note": ""
  },
  {
   "property": "C116",
   "status": "proved",
   "theorems": [
    "C116_sine",
    "C116_envelope",
    "C116_noise",
    "C116_peaks",
    "C116_still_active",
    "C116_loop"
   ],
   "note": ""
  },
  {
   "property": "C117",
   "status": "proved",
   "theorems": [
    "C117_lag",
    "C117_onepole",
    "C117_dcblock",
    "C117_laglinear",
    "C117_rlpf",
    "C117_downsampler",
    "C117_combc",
    "C117_fverb",
    "C117_stilson",
    "C117_microtracker",
    "C117_rksimulation",
    "C117_musicdsp",
    "C117_oberheim",
    "C117_improved",
    "C117_krajeski",
    "C117_krajeski_nan_refuted",
    "C117_tape",
    "C117_tape_bias_refuted",
    "C117_pan"
   ],
   "note": ""
  },
  {
   "property": "C118",
   "status": "proved",
   "theorems": [
    "C118_lag",
    "C118_onepole",
    "C118_dcblock",
    "C118_tape",
    "C118_laglinear",
    "C118_rlpf",
    "C118_downsampler",
    "C118_combc",
    "C118_stilson",
    "C118_microtracker",
    "C118_rksimulation",
    "C118_musicdsp",
    "C118_oberheim",
    "C118_improved",
    "C118_exact_lag",
    "C118_exact_onepole",
    "C118_exact_dcblock",
    "C118_exact_tape",
    "C118_exact_krajeski",
    "C118_exact_improved",
    "C118_exact_oberheim",
    "C118_exact_rksimulation",
    "C118_exact_microtracker",
    "C118_exact_musicdsp",
    "C118_krajeski_refuted"
   ],
   "note": ""
  },
  {
   "property": "C119",
   "status": "proved",
   "theorems": [
    "C119_dcblock_short",
    "C119_onepole_short",
    "C119_lag_short",
    "C119_dcblock_refuted",
    "C119_onepole_refuted",
    "C119_lag_refuted"
   ],
   "note": ""
  },
  {
   "property": "C120",
   "status": "proved",
   "theorems": [
    "C120_envelope_ar",
    "C120_envelope_adsr",
    "C120_oscillators",
    "C120_voice",
    "C120_supersaw",
    "C120_tape_bufrd_xline_phasor",
    "C120_krajeski",
    "C120_microtracker",
    "C120_oberheim",
    "C120_improved",
    "C120_rksimulation",
    "C120_musicdsp",
    "C120_stilson",
    "C120_rlpf",
    "C120_comb",
    "C120_comb_short_refuted",
    "C120_no_vibrato_refuted",
    "C120_depth_zero",
    "C120_mixers",
    "C120_mixers_centre"
   ],
   "note": ""
  },
  {
   "property": "C121",
   "status": "proved",
   "theorems": [
    "C121_oscillators",
    "C121_smoothers",
    "C121_tape",
    "C121_envelope_ar",
    "C121_envelope_adsr",
    "C121_phasor",
    "C121_bufrd",
    "C121_rlpf",
    "C121_krajeski",
    "C121_microtracker",
    "C121_rksimulation",
    "C121_improved",
    "C121_oberheim",
    "C121_musicdsp",
    "C121_comb",
    "C121_voice_levels",
    "C121_voice_rate",
    "C121_voice_times",
    "C121_supersaw",
    "C121_supersaw_envelope",
    "C121_laglinear_refuted",
    "C121_stilson",
    "C121_supersaw_voices"
   ],
   "note": ""
  },
  {
   "property": "C122",
   "status": "proved",
   "theorems": [
    "C122_sinosc",
    "C122_lftri",
    "C122_sawdpw",
    "C122_sawdpw_default_refuted",
    "C122_lfnoise2",
    "C122_lag",
    "C122_onepole",
    "C122_dcblock",
    "C122_tape",
    "C122_envelope_ar",
    "C122_envelope_adsr",
    "C122_phasor",
    "C122_xline",
    "C122_rlpf",
    "C122_comb"
   ],
   "note": ""
  }
 ]
}