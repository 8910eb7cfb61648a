{
 "claims": [
  {
   "property": "C01",
   "status": "proved",
   "theorems": [
    "C01_build_rejects"
   ],
   "note": "binary32; assumes log2f exact on powers of two and within 2^-19 elsewhere; length up to 2^18"
  },
  {
   "property": "C02",
   "status": "proved",
   "theorems": [
    "C02_build_shape"
   ],
   "note": "binary32, any successful resampler"
  },
  {
   "property": "C03",
   "status": "proved",
   "theorems": [
    "C03_build_total_refuted",
    "C03_build_outcome"
   ],
   "note": "binary32; outcome for every power-of-two length up to 2^24, witnesses for the three faults; log2f exact on powers of two"
  },
  {
   "property": "C04",
   "status": "proved",
   "theorems": [
    "C04_phase_grid"
   ],
   "note": "binary32"
  },
  {
   "property": "C09",
   "status": "proved",
   "theorems": [
    "C09_limits_exact",
    "C09_usual_rates",
    "C09_resample_restarts",
    "C09_unusual_rate_refuted"
   ],
   "note": "binary32; sample rate >= 2^-100 and, if the compiler multiplies by the reciprocal of the rate, brought back to 1 by its rounded reciprocal (all usual rates are: C09_usual_rates; 44106 Hz is not: C09_unusual_rate_refuted); log2f exact on powers of two"
  },
  {
   "property": "C10",
   "status": "proved",
   "theorems": [
    "C10_step_size"
   ],
   "note": "binary32; settled = 2n earlier calls in the same octave"
  },
  {
   "property": "C11",
   "status": "proved",
   "theorems": [
    "C11_gains_convex"
   ],
   "note": "binary32, every reachable table"
  },
  {
   "property": "C12",
   "status": "proved",
   "theorems": [
    "C12_entries_adjacent"
   ],
   "note": "binary32, every reachable table"
  },
  {
   "property": "C13",
   "status": "proved",
   "theorems": [
    "C13_fade_settles"
   ],
   "note": "binary32, every reachable table"
  },
  {
   "property": "C14",
   "status": "proved",
   "theorems": [
    "C14_linear_ramp"
   ],
   "note": "binary32; n up to 2^24 so that n is exactly representable"
  },
  {
   "property": "C15",
   "status": "proved",
   "theorems": [
    "C15_octave_rule"
   ],
   "note": "binary32; the rule needs strictly more than n calls between changes"
  },
  {
   "property": "C16",
   "status": "proved",
   "theorems": [
    "C16_zero_fade_refuted",
    "C16_negative_fade_refuted",
    "C16_finite_gains"
   ],
   "note": "binary32; every table with a zero- or negative-sample fade misbehaves, every other one gives finite gains"
  },
  {
   "property": "C21",
   "status": "proved",
   "theorems": [
    "C21_safe",
    "C21_only_fault"
   ],
   "note": "binary32, any filter, SIMD width, debug and release, every history of API calls of a careful caller"
  },
  {
   "property": "C22",
   "status": "proved",
   "theorems": [
    "C22_reverse_zero_refuted",
    "C22_exactly_when"
   ],
   "note": "binary32; a concrete history for all five filters, debug and release, and the exact condition after every history"
  },
  {
   "property": "C17",
   "status": "proved",
   "theorems": [
    "C17_step_range"
   ],
   "note": "binary32, any oscillator state"
  },
  {
   "property": "C18",
   "status": "proved",
   "theorems": [
    "C18_directions_agree",
    "C18_half_cycle_differs"
   ],
   "note": "binary32, any oscillator state, debug and release; the boundary case of exactly half a cycle is shown to differ"
  },
  {
   "property": "C19",
   "status": "proved",
   "theorems": [
    "C19_block_size"
   ],
   "note": "every number system, any oscillator state, faults included"
  },
  {
   "property": "C20",
   "status": "proved",
   "theorems": [
    "C20_one_per_phase"
   ],
   "note": "every number system, any oscillator state"
  },
  {
   "property": "C34",
   "status": "proved",
   "theorems": [
    "C34_null",
    "C34_ownership",
    "C34_always_succeeds"
   ],
   "note": "ownership for every number system; success in binary32 for usable tables"
  },
  {
   "property": "C35",
   "status": "proved",
   "theorems": [
    "C35_reset_forgets",
    "C35_load_forgets"
   ],
   "note": "every number system, faults included"
  },
  {
   "property": "C36",
   "status": "proved",
   "theorems": [
    "C36_waveforms_isolated",
    "C36_setWaveform"
   ],
   "note": "binary32, faults included, histories with resets and sample-rate changes"
  },
  {
   "property": "C05",
   "status": "proved",
   "theorems": [
    "C05_segments"
   ],
   "note": "exact arithmetic, every table built from the samples however played and re-sampled"
  },
  {
   "property": "C06",
   "status": "proved",
   "theorems": [
    "C06_differences",
    "C06_header_refuted"
   ],
   "note": "exact arithmetic; the header's formula is refuted"
  },
  {
   "property": "C07",
   "status": "proved",
   "theorems": [
    "C07_update_exact",
    "C07_update_succeeds"
   ],
   "note": "exact arithmetic, any number of sample-rate changes"
  },
  {
   "property": "C08",
   "status": "proved",
   "theorems": [
    "C08_update_error",
    "C08_update_error_16384",
    "C08_larger_tables_refuted"
   ],
   "note": "binary32 with binary64 intermediates; every product and sum may be contracted (FMA) or not, independently at each place, in the two error bounds; the 32768-sample counterexample is for the uncontracted code"
  },
  {
   "property": "C37",
   "status": "proved",
   "theorems": [
    "C37_bad_rate_crashes",
    "C37_oscillator"
   ],
   "note": "binary32, finite rates <= 0"
  },
  {
   "property": "C38",
   "status": "proved",
   "theorems": [
    "C38_floor_ceil",
    "C38_reduce_int",
    "C38_reduce_phase",
    "C38_reduce_negative_refuted",
    "C38_sign",
    "C38_isOdd",
    "C38_isPowerOfTwo",
    "C38_isPowerOfTwo_large_refuted"
   ],
   "note": "binary32; log2f within 2^-19"
  },
  {
   "property": "C44",
   "status": "proved",
   "theorems": [
    "C44_entries_are_waveforms"
   ],
   "note": "binary32, bit for bit"
  },
  {
   "property": "C39",
   "status": "proved",
   "theorems": [
    "C39_repeat_debug",
    "C39_repeat_debug_first",
    "C39_repeat_release",
    "C39_readme_release"
   ],
   "note": "debug: failed assertion for every oscillator/filter/direction; release: phase 0 repeated gives NaN (or the C22 read), for every table incl. the README example; assumes exp(NaN)=NaN"
  },
  {
   "property": "C40",
   "status": "proved",
   "theorems": [
    "C40_nan_absorbing",
    "C40_reset_recovers",
    "C40_load_recovers"
   ],
   "note": "textbook complex product; Annex G NaN/inf recovery not modelled"
  },
  {
   "property": "C23",
   "status": "proved",
   "theorems": [
    "C23_histories_exact",
    "C23_forward_sample",
    "C23_readme_histories",
    "C23_shipped_filters"
   ],
   "note": "exact real arithmetic, every filter, SIMD width, debug and release; steps up to half a cycle; all README-conforming forward histories are covered"
  },
  {
   "property": "C24",
   "status": "proved",
   "theorems": [
    "C24_any_direction_sample",
    "C24_turning_histories",
    "C23_shipped_filters"
   ],
   "note": "exact real arithmetic; turns on one table entry, across phase 0"
  },
  {
   "property": "C25",
   "status": "proved",
   "theorems": [
    "C25_fading_sample",
    "C23_readme_histories",
    "C23_shipped_filters"
   ],
   "note": "exact real arithmetic; rises and one-octave drops after a forward step"
  },
  {
   "property": "C28",
   "status": "proved",
   "theorems": [
    "C28_bounded_for_ever",
    "C23_shipped_filters"
   ],
   "note": "exact real arithmetic, histories of any length"
  },
  {
   "property": "C29",
   "status": "proved",
   "theorems": [
    "C29_constant_waveform",
    "C29_limit",
    "C23_shipped_filters"
   ],
   "note": "exact real arithmetic; both directions, re-sampling, waveform selection"
  },
  {
   "property": "C30",
   "status": "proved",
   "theorems": [
    "C30_linear",
    "C30_build"
   ],
   "note": "exact real arithmetic; every history, filter, SIMD width, faults included; assumes a linear resampler"
  },
  {
   "property": "C31",
   "status": "proved",
   "theorems": [
    "C31_width_independent",
    "C31_in_bounds",
    "C31_upper_num_coeffs"
   ],
   "note": "whole runs (states, samples, faults) equal in exact arithmetic for all widths; bounds in every number system; float division of computeUpperNumCoeffs in binary32"
  },
  {
   "property": "C32",
   "status": "proved",
   "theorems": [
    "C32_convolution",
    "C32_real_filter"
   ],
   "note": "exact real arithmetic; stated as the convolution integral with the full-order filter's impulse response"
  },
  {
   "property": "C33",
   "status": "proved",
   "theorems": [
    "C33_stable",
    "C33_stable_binary32",
    "C33_dc_gain"
   ],
   "note": "exact coefficients and their binary32 roundings; gain bounds exact rational computation"
  },
  {
   "property": "C26",
   "status": "proved",
   "theorems": [
    "C26_click",
    "C26_reverse_rise_refuted"
   ],
   "note": "exact arithmetic; exact size of the error for every filter and history whose reverse step is followed by a rise with gains (1,0) (the only gains the cross-fader produces on an idle rise), and a concrete history, for every 8-sample waveform, whose output misses the ideal"
  },
  {
   "property": "C27",
   "status": "proved",
   "theorems": [
    "C27_click",
    "C27_two_octave_drop_refuted"
   ],
   "note": "exact arithmetic; exact size of the error on the first sample of a drop (gains (0,1)) after a forward step, and a concrete history, for every 16-sample waveform, whose output misses the ideal"
  },
  {
   "property": "C42",
   "status": "proved",
   "theorems": [
    "C42_mirror",
    "C42_mirrored_tables"
   ],
   "note": "exact arithmetic; both histories must meet the exactness conditions; half-cycle steps excluded in bidirectional blocks (their direction depends on the phases)"
  },
  {
   "property": "C43",
   "status": "proved",
   "theorems": [
    "C43_rotation",
    "C43_rotated_tables"
   ],
   "note": "exact arithmetic; the entries that can be heard must be rotated too (entry 0 always is; the others depend on the resampler)"
  },
  {
   "property": "C41",
   "status": "proved",
   "theorems": [
    "C41_same",
    "C41_table",
    "C41_always",
    "C41_settled",
    "C41_readme",
    "C41_step_bound_refuted"
   ],
   "note": "binary32; iteration counts of an instrumented oscillator proved to produce the same runs; phases are 0 or at least 2^-100; steps of exactly half a cycle excluded from the settled bound"
  },
  {
   "property": "C45",
   "status": "proved",
   "theorems": [
    "C45_tone",
    "C45_butterworth"
   ],
   "note": "coefficients as written (exact decimals), continuous-time transfer function; polynomial inequalities settled by a verified checker run in the kernel VM"
  },
  {
   "property": "C46",
   "status": "proved",
   "theorems": [
    "C46_chebyshev",
    "C46_stopband",
    "C46_not_60dB",
    "C46_passband"
   ],
   "note": "coefficients as written (exact decimals); full-order filter, conjugate poles included"
  },
  {
   "property": "C47",
   "status": "proved",
   "theorems": [
    "C47_lines",
    "C47_jumps",
    "C47_2048"
   ],
   "note": "binary32; entry samples assumed finite and bounded (for entry 0 these are the user's samples); phases of the segment are real numbers, the evaluation m*t+q is exact"
  },
  {
   "property": "C48",
   "status": "proved",
   "theorems": [
    "C48_drift"
   ],
   "note": "binary32; worst-case bound"
  },
  {
   "property": "C49",
   "status": "proved",
   "theorems": [
    "C49_harmonics",
    "C49_aliasing",
    "C49_samples",
    "C49_sampled_harmonics"
   ],
   "note": "exact arithmetic; the phases must be on or 2^-126 away from the tables' grids, as everywhere in the exact statements; the cross-fader's settling and the filter's transient are part of the limit"
  },
  {
   "property": "C50",
   "status": "proved",
   "theorems": [
    "C50_accurate_for_ever",
    "C50_readme_histories",
    "C50_turning_histories"
   ],
   "note": "binary32 against the ideal fed with the same binary32 samples, phases and gains; scalar complex products by the textbook formula, SIMD lanes by xsimd's formulas with or without fused multiply-add, the compiler may contract any scalar sum of products and take the sum over the poles in any order, and may divide by multiplying with the reciprocal (other effects of -ffast-math excluded); the bound is worst case and proportional to the steepest slope of the tables; phases are 0 or at least 2^-100 and steps shorter than half a cycle; the ideal is undefined (not covered) after moves where the library loses its place, which C26 and C27 describe"
  },
  {
   "property": "C51",
   "status": "proved",
   "theorems": [
    "C51_level"
   ],
   "note": "same histories and hypotheses as C50"
  },
  {
   "property": "C52",
   "status": "proved",
   "theorems": [
    "C52_wide_safe",
    "C52_wide_only_fault",
    "C52_only_the_position_matters",
    "C52_phase_one",
    "C52_after_phase_one",
    "C52_tiny_negative_refuted"
   ],
   "note": "binary32, but C52_only_the_position_matters in exact arithmetic; C52_tiny_negative_refuted is the counterexample for the phases left out"
  },
  {
   "property": "C53",
   "status": "proved",
   "theorems": [
    "C53_forward",
    "C53_backward",
    "C53_drift",
    "C53_careful",
    "C53_safe",
    "C53_accurate",
    "C53_stall_refuted"
   ],
   "note": "binary32; fmod(x,1) is modelled for |x| < 2^24 (exact, sign of x); how the steps are computed from frequencies (division, pow, log2) is not modelled: the steps are arbitrary"
  },
  {
   "property": "C54",
   "status": "proved",
   "theorems": [
    "C54_tones_safe",
    "C54_forward_tones_safe",
    "C54_first_tone_refuted"
   ],
   "note": "binary32; reading command line and writing files are not modelled; C54_first_tone_refuted shows the exclusion is needed"
  },
  {
   "property": "C55",
   "status": "proved",
   "theorems": [
    "C55_harmonics32",
    "C55_built_tone",
    "C55_constant32"
   ],
   "note": "binary32; same histories and hypotheses as C50; the block starts after an arbitrary covered history and stays on one table entry (its steps select the entry); eps is the distance between the line graph of the binary32 entry and the harmonics, supplied by the user (C49_samples bounds it for sampled harmonics)"
  },
  {
   "property": "C56",
   "status": "proved",
   "theorems": [
    "C56_selection_forgotten",
    "C56_shipped",
    "C56_selection_forgotten32"
   ],
   "note": "exact arithmetic and binary32; the histories are those of C23 and C50; setWaveform is called with existing waveforms (the library does not check)"
  },
  {
   "property": "C57",
   "status": "proved",
   "theorems": [
    "C57_windows",
    "C57_overlap",
    "C57_sizes"
   ],
   "note": "every number system and oscillator state; spans are windows of one memory at float granularity; the memory of the oscillator and its tables is separate"
  },
  {
   "property": "C58",
   "status": "proved",
   "theorems": [
    "C58_no_table",
    "C58_bad_waveform",
    "C58_bad_phase",
    "C58_bad_start",
    "C58_debug_range",
    "C58_debug_start"
   ],
   "note": "the model reports undefined behaviour as a fault; what a machine then does is outside the model. In a release build, phases of [-2,-1) and [2,3) are not covered (C52 covers [-1,2)); a debug build stops at them (C58_debug_range)"
  },
  {
   "property": "C59",
   "status": "proved",
   "theorems": [
    "C59_stops",
    "C59_aliasing",
    "C59_aliasing32",
    "C59_folds",
    "C59_octave"
   ],
   "note": "generalises C49_aliasing to every filter type and to single precision; exact statement over the histories of C49, single-precision one over those of C55; how closely an entry is a sum of harmonics (eps) is the resampler's quality, an input of the statement"
  },
  {
   "property": "C60",
   "status": "proved",
   "theorems": [
    "C60_inverted",
    "C60_build",
    "C60_silence"
   ],
   "note": "single precision; the hypothesis on the resampler (even-handed) is about libsamplerate, which is not modelled; silence allows NaN, which needs phases whose exponential overflows (C51 excludes it for covered histories)"
  },
  {
   "property": "C61",
   "status": "proved",
   "theorems": [
    "C61_portable",
    "C61_readme"
   ],
   "note": "sample-rate changes are not among the calls (after one, the two tables hold samples that differ by rounding, C08); both machines use the same resampler function"
  },
  {
   "property": "C62",
   "status": "proved",
   "theorems": [
    "C62_fade_restarts",
    "C62_neighbour_heard",
    "C62_same_rate_refuted"
   ],
   "note": "gains in binary32; what is heard in exact arithmetic, after any history covered by C20, for forward movement; the desirable property (a redundant updateSamplerate changes nothing) is refuted"
  },
  {
   "property": "C63",
   "status": "proved",
   "theorems": [
    "C63_slightly_off",
    "C63_readme_histories",
    "C63_slightly_off32",
    "C63_readme32"
   ],
   "note": "exact arithmetic: phases and samples perturbed; binary32: phases perturbed, same tables. Steps of different octaves are excluded: the mipmap entry then differs and the outputs differ by the entries' difference"
  },
  {
   "property": "C64",
   "status": "proved",
   "theorems": [
    "C64_pauses",
    "C64_pausing_histories",
    "C64_hold_settles",
    "C64_turning_back",
    "C64_turn_back_refuted",
    "C64_pauses32",
    "C64_pausing_histories32",
    "C64_hold_settles32"
   ],
   "note": "exact arithmetic, and binary32 within the accuracy of C50 (turning back: exact only); pauses on a grid point (0/0, C39) are excluded; turning back right after a pause is characterised (the library starts one segment too high) and refuted as harmless, as is pausing above the lowest octave without being there first (the request for a zero step is the lowest entry)"
  },
  {
   "property": "C65",
   "status": "proved",
   "theorems": [
    "C65_build_same",
    "C65_resample_same",
    "C65_same_fade_length",
    "C65_no_fade",
    "C65_no_fade_resampled",
    "C65_after_fade",
    "C65_after_fade_resampled"
   ],
   "note": "binary32, usable rates (C09); outputs are equal bit for bit. Between a change of octave and the end of the longer fade the outputs do depend on the fade's length (C14)"
  },
  {
   "property": "C66",
   "status": "proved",
   "theorems": [
    "C66_only_the_entry",
    "C66_only_the_entry_after_fade",
    "C66_resampler_not_heard"
   ],
   "note": "binary32, usable rates (C09); outputs are equal bit for bit. Histories of resets, waveform selections and blocks; updateSamplerate rebuilds the table from entry 0 (C07, C48)"
  },
  {
   "property": "C67",
   "status": "proved",
   "theorems": [
    "C67_place",
    "C67_alone"
   ],
   "note": "binary32, any numbers of waveforms on the two sides, changes of rate included; outputs are equal bit for bit. More general than C36, which keeps the set's size and stays on one waveform. Resamplers that fail are excluded: one that failed on a waveform only one set holds would fail only that build"
  },
  {
   "property": "C68",
   "status": "proved",
   "theorems": [
    "C68_state_forgotten",
    "C68_past_forgotten"
   ],
   "note": "binary32; outputs are equal bit for bit. C68_state_forgotten is for any two states (any reachable tables of the same samples, possibly re-sampled to different fades), C68_past_forgotten spells the pasts out as calls made since the same table was loaded. More general than C35, which needs equal cross-faders, and than the after-fade part of C65, which starts from fresh tables. Runs of the settling calls that fault are excluded"
  }
 ]
}